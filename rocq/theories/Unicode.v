(** Generated by tools/gen_unicode.pl from perl's Unicode database; do not edit.
    Code point sets are balanced search trees of disjoint ranges. *)
From Coq Require Import NArith List Bool.
Import ListNotations.
Open Scope N_scope.

Inductive rtree := E | T (l : rtree) (lo hi : N) (r : rtree).

Fixpoint rmem (t : rtree) (c : N) : bool :=
  match t with
  | E => false
  | T l lo hi r => if c <? lo then rmem l c else if hi <? c then rmem r c else true
  end.

Definition tab_Alnum : rtree :=
  (T (T (T (T (T (T (T (T (T E 48 57 (T E 65 90 E)) 97 122 (T E 170 170 (T E 178 179 E))) 181
  181 (T (T E 185 186 (T E 188 190 E)) 192 214 (T E 216 246 (T E 248 705 E)))) 710 721 (T (T
  (T E 736 740 (T E 748 748 E)) 750 750 (T E 837 837 (T E 880 884 E))) 886 887 (T (T E 890 893
  (T E 895 895 E)) 902 902 (T (T E 904 906 E) 908 908 (T E 910 929 E))))) 931 1013 (T (T (T (T
  E 1015 1153 (T E 1162 1327 E)) 1329 1366 (T E 1369 1369 (T E 1376 1416 E))) 1456 1469 (T (T
  E 1471 1471 (T E 1473 1474 E)) 1476 1477 (T E 1479 1479 (T E 1488 1514 E)))) 1519 1522 (T (T
  (T E 1552 1562 (T E 1568 1623 E)) 1625 1641 (T E 1646 1747 (T E 1749 1756 E))) 1761 1768 (T
  (T E 1773 1788 (T E 1791 1791 E)) 1808 1855 (T (T E 1869 1969 E) 1984 2026 (T E 2036 2037 E))))))
  2042 2042 (T (T (T (T (T E 2048 2071 (T E 2074 2092 E)) 2112 2136 (T E 2144 2154 (T E 2160
  2183 E))) 2185 2190 (T (T E 2208 2249 (T E 2260 2271 E)) 2275 2281 (T E 2288 2363 (T E 2365
  2380 E)))) 2382 2384 (T (T (T E 2389 2403 (T E 2406 2415 E)) 2417 2435 (T E 2437 2444 (T E
  2447 2448 E))) 2451 2472 (T (T E 2474 2480 (T E 2482 2482 E)) 2486 2489 (T (T E 2493 2500 E)
  2503 2504 (T E 2507 2508 E))))) 2510 2510 (T (T (T (T E 2519 2519 (T E 2524 2525 E)) 2527 2531
  (T E 2534 2545 (T E 2548 2553 E))) 2556 2556 (T (T E 2561 2563 (T E 2565 2570 E)) 2575 2576
  (T (T E 2579 2600 E) 2602 2608 (T E 2610 2611 E)))) 2613 2614 (T (T (T E 2616 2617 (T E 2622
  2626 E)) 2631 2632 (T E 2635 2636 (T E 2641 2641 E))) 2649 2652 (T (T E 2654 2654 (T E 2662
  2677 E)) 2689 2691 (T (T E 2693 2701 E) 2703 2705 (T E 2707 2728 E))))))) 2730 2736 (T (T (T
  (T (T (T E 2738 2739 (T E 2741 2745 E)) 2749 2757 (T E 2759 2761 (T E 2763 2764 E))) 2768 2768
  (T (T E 2784 2787 (T E 2790 2799 E)) 2809 2812 (T E 2817 2819 (T E 2821 2828 E)))) 2831 2832
  (T (T (T E 2835 2856 (T E 2858 2864 E)) 2866 2867 (T E 2869 2873 (T E 2877 2884 E))) 2887 2888
  (T (T E 2891 2892 (T E 2902 2903 E)) 2908 2909 (T (T E 2911 2915 E) 2918 2927 (T E 2929 2935
  E))))) 2946 2947 (T (T (T (T E 2949 2954 (T E 2958 2960 E)) 2962 2965 (T E 2969 2970 (T E 2972
  2972 E))) 2974 2975 (T (T E 2979 2980 (T E 2984 2986 E)) 2990 3001 (T E 3006 3010 (T E 3014
  3016 E)))) 3018 3020 (T (T (T E 3024 3024 (T E 3031 3031 E)) 3046 3058 (T E 3072 3084 (T E
  3086 3088 E))) 3090 3112 (T (T E 3114 3129 (T E 3133 3140 E)) 3142 3144 (T (T E 3146 3148 E)
  3157 3158 (T E 3160 3162 E)))))) 3165 3165 (T (T (T (T (T E 3168 3171 (T E 3174 3183 E)) 3192
  3198 (T E 3200 3203 (T E 3205 3212 E))) 3214 3216 (T (T E 3218 3240 (T E 3242 3251 E)) 3253
  3257 (T E 3261 3268 (T E 3270 3272 E)))) 3274 3276 (T (T (T E 3285 3286 (T E 3293 3294 E))
  3296 3299 (T E 3302 3311 (T E 3313 3315 E))) 3328 3340 (T (T E 3342 3344 (T E 3346 3386 E))
  3389 3396 (T (T E 3398 3400 E) 3402 3404 (T E 3406 3406 E))))) 3412 3427 (T (T (T (T E 3430
  3448 (T E 3450 3455 E)) 3457 3459 (T E 3461 3478 (T E 3482 3505 E))) 3507 3515 (T (T E 3517
  3517 (T E 3520 3526 E)) 3535 3540 (T (T E 3542 3542 E) 3544 3551 (T E 3558 3567 E)))) 3570
  3571 (T (T (T E 3585 3642 (T E 3648 3654 E)) 3661 3661 (T E 3664 3673 (T E 3713 3714 E))) 3716
  3716 (T (T E 3718 3722 (T E 3724 3747 E)) 3749 3749 (T (T E 3751 3769 E) 3771 3773 (T E 3776
  3780 E)))))))) 3782 3782 (T (T (T (T (T (T (T E 3789 3789 (T E 3792 3801 E)) 3804 3807 (T E
  3840 3840 (T E 3872 3891 E))) 3904 3911 (T (T E 3913 3948 (T E 3953 3971 E)) 3976 3991 (T E
  3993 4028 (T E 4096 4150 E)))) 4152 4152 (T (T (T E 4155 4169 (T E 4176 4253 E)) 4256 4293
  (T E 4295 4295 (T E 4301 4301 E))) 4304 4346 (T (T E 4348 4680 (T E 4682 4685 E)) 4688 4694
  (T (T E 4696 4696 E) 4698 4701 (T E 4704 4744 E))))) 4746 4749 (T (T (T (T E 4752 4784 (T E
  4786 4789 E)) 4792 4798 (T E 4800 4800 (T E 4802 4805 E))) 4808 4822 (T (T E 4824 4880 (T E
  4882 4885 E)) 4888 4954 (T E 4969 4988 (T E 4992 5007 E)))) 5024 5109 (T (T (T E 5112 5117
  (T E 5121 5740 E)) 5743 5759 (T E 5761 5786 (T E 5792 5866 E))) 5870 5880 (T (T E 5888 5907
  (T E 5919 5939 E)) 5952 5971 (T (T E 5984 5996 E) 5998 6000 (T E 6002 6003 E)))))) 6016 6067
  (T (T (T (T (T E 6070 6088 (T E 6103 6103 E)) 6108 6108 (T E 6112 6121 (T E 6128 6137 E)))
  6160 6169 (T (T E 6176 6264 (T E 6272 6314 E)) 6320 6389 (T E 6400 6430 (T E 6432 6443 E))))
  6448 6456 (T (T (T E 6470 6509 (T E 6512 6516 E)) 6528 6571 (T E 6576 6601 (T E 6608 6618 E)))
  6656 6683 (T (T E 6688 6750 (T E 6753 6772 E)) 6784 6793 (T (T E 6800 6809 E) 6823 6823 (T
  E 6847 6848 E))))) 6860 6862 (T (T (T (T E 6912 6963 (T E 6965 6979 E)) 6981 6988 (T E 6992
  7001 (T E 7040 7081 E))) 7084 7141 (T (T E 7143 7153 (T E 7168 7222 E)) 7232 7241 (T (T E 7245
  7293 E) 7296 7304 (T E 7312 7354 E)))) 7357 7359 (T (T (T E 7401 7404 (T E 7406 7411 E)) 7413
  7414 (T E 7418 7418 (T E 7424 7615 E))) 7655 7668 (T (T E 7680 7957 (T E 7960 7965 E)) 7968
  8005 (T (T E 8008 8013 E) 8016 8023 (T E 8025 8025 E))))))) 8027 8027 (T (T (T (T (T (T E 8029
  8029 (T E 8031 8061 E)) 8064 8116 (T E 8118 8124 (T E 8126 8126 E))) 8130 8132 (T (T E 8134
  8140 (T E 8144 8147 E)) 8150 8155 (T E 8160 8172 (T E 8178 8180 E)))) 8182 8188 (T (T (T E
  8304 8305 (T E 8308 8313 E)) 8319 8329 (T E 8336 8348 (T E 8450 8450 E))) 8455 8455 (T (T E
  8458 8467 (T E 8469 8469 E)) 8473 8477 (T (T E 8484 8484 E) 8486 8486 (T E 8488 8488 E)))))
  8490 8493 (T (T (T (T E 8495 8505 (T E 8508 8511 E)) 8517 8521 (T E 8526 8526 (T E 8528 8585
  E))) 9312 9371 (T (T E 9398 9471 (T E 10102 10131 E)) 11264 11492 (T (T E 11499 11502 E) 11506
  11507 (T E 11517 11517 E)))) 11520 11557 (T (T (T E 11559 11559 (T E 11565 11565 E)) 11568
  11623 (T E 11631 11631 (T E 11648 11670 E))) 11680 11686 (T (T E 11688 11694 (T E 11696 11702
  E)) 11704 11710 (T (T E 11712 11718 E) 11720 11726 (T E 11728 11734 E)))))) 11736 11742 (T
  (T (T (T (T E 11744 11775 (T E 11823 11823 E)) 12293 12295 (T E 12321 12329 (T E 12337 12341
  E))) 12344 12348 (T (T E 12353 12438 (T E 12445 12447 E)) 12449 12538 (T E 12540 12543 (T E
  12549 12591 E)))) 12593 12686 (T (T (T E 12690 12693 (T E 12704 12735 E)) 12784 12799 (T E
  12832 12841 (T E 12872 12879 E))) 12881 12895 (T (T E 12928 12937 (T E 12977 12991 E)) 13312
  19903 (T (T E 19968 42124 E) 42192 42237 (T E 42240 42508 E))))) 42512 42539 (T (T (T (T E
  42560 42606 (T E 42612 42619 E)) 42623 42735 (T E 42775 42783 (T E 42786 42888 E))) 42891 42954
  (T (T E 42960 42961 (T E 42963 42963 E)) 42965 42969 (T (T E 42994 43013 E) 43015 43047 (T
  E 43056 43061 E)))) 43072 43123 (T (T (T E 43136 43203 (T E 43205 43205 E)) 43216 43225 (T
  E 43250 43255 (T E 43259 43259 E))) 43261 43306 (T (T E 43312 43346 (T E 43360 43388 E)) 43392
  43442 (T (T E 43444 43455 E) 43471 43481 (T E 43488 43518 E))))))))) 43520 43574 (T (T (T (T
  (T (T (T (T E 43584 43597 (T E 43600 43609 E)) 43616 43638 (T E 43642 43710 (T E 43712 43712
  E))) 43714 43714 (T (T E 43739 43741 (T E 43744 43759 E)) 43762 43765 (T E 43777 43782 (T E
  43785 43790 E)))) 43793 43798 (T (T (T E 43808 43814 (T E 43816 43822 E)) 43824 43866 (T E
  43868 43881 (T E 43888 44010 E))) 44016 44025 (T (T E 44032 55203 (T E 55216 55238 E)) 55243
  55291 (T (T E 63744 64109 E) 64112 64217 (T E 64256 64262 E))))) 64275 64279 (T (T (T (T E
  64285 64296 (T E 64298 64310 E)) 64312 64316 (T E 64318 64318 (T E 64320 64321 E))) 64323 64324
  (T (T E 64326 64433 (T E 64467 64829 E)) 64848 64911 (T E 64914 64967 (T E 65008 65019 E))))
  65136 65140 (T (T (T E 65142 65276 (T E 65296 65305 E)) 65313 65338 (T E 65345 65370 (T E 65382
  65470 E))) 65474 65479 (T (T E 65482 65487 (T E 65490 65495 E)) 65498 65500 (T (T E 65536 65547
  E) 65549 65574 (T E 65576 65594 E)))))) 65596 65597 (T (T (T (T (T E 65599 65613 (T E 65616
  65629 E)) 65664 65786 (T E 65799 65843 (T E 65856 65912 E))) 65930 65931 (T (T E 66176 66204
  (T E 66208 66256 E)) 66273 66299 (T E 66304 66339 (T E 66349 66378 E)))) 66384 66426 (T (T
  (T E 66432 66461 (T E 66464 66499 E)) 66504 66511 (T E 66513 66517 (T E 66560 66717 E))) 66720
  66729 (T (T E 66736 66771 (T E 66776 66811 E)) 66816 66855 (T (T E 66864 66915 E) 66928 66938
  (T E 66940 66954 E))))) 66956 66962 (T (T (T (T E 66964 66965 (T E 66967 66977 E)) 66979 66993
  (T E 66995 67001 (T E 67003 67004 E))) 67072 67382 (T (T E 67392 67413 (T E 67424 67431 E))
  67456 67461 (T (T E 67463 67504 E) 67506 67514 (T E 67584 67589 E)))) 67592 67592 (T (T (T
  E 67594 67637 (T E 67639 67640 E)) 67644 67644 (T E 67647 67669 (T E 67672 67702 E))) 67705
  67742 (T (T E 67751 67759 (T E 67808 67826 E)) 67828 67829 (T (T E 67835 67867 E) 67872 67897
  (T E 67968 68023 E))))))) 68028 68047 (T (T (T (T (T (T E 68050 68099 (T E 68101 68102 E))
  68108 68115 (T E 68117 68119 (T E 68121 68149 E))) 68160 68168 (T (T E 68192 68222 (T E 68224
  68255 E)) 68288 68295 (T E 68297 68324 (T E 68331 68335 E)))) 68352 68405 (T (T (T E 68416
  68437 (T E 68440 68466 E)) 68472 68497 (T E 68521 68527 (T E 68608 68680 E))) 68736 68786 (T
  (T E 68800 68850 (T E 68858 68903 E)) 68912 68921 (T (T E 69216 69246 E) 69248 69289 (T E 69291
  69292 E))))) 69296 69297 (T (T (T (T E 69376 69415 (T E 69424 69445 E)) 69457 69460 (T E 69488
  69505 (T E 69552 69579 E))) 69600 69622 (T (T E 69632 69701 (T E 69714 69743 E)) 69745 69749
  (T E 69760 69816 (T E 69826 69826 E)))) 69840 69864 (T (T (T E 69872 69881 (T E 69888 69938
  E)) 69942 69951 (T E 69956 69959 (T E 69968 70002 E))) 70006 70006 (T (T E 70016 70079 (T E
  70081 70084 E)) 70094 70106 (T (T E 70108 70108 E) 70113 70132 (T E 70144 70161 E)))))) 70163
  70196 (T (T (T (T (T E 70199 70199 (T E 70206 70209 E)) 70272 70278 (T E 70280 70280 (T E 70282
  70285 E))) 70287 70301 (T (T E 70303 70312 (T E 70320 70376 E)) 70384 70393 (T E 70400 70403
  (T E 70405 70412 E)))) 70415 70416 (T (T (T E 70419 70440 (T E 70442 70448 E)) 70450 70451
  (T E 70453 70457 (T E 70461 70468 E))) 70471 70472 (T (T E 70475 70476 (T E 70480 70480 E))
  70487 70487 (T (T E 70493 70499 E) 70656 70721 (T E 70723 70725 E))))) 70727 70730 (T (T (T
  (T E 70736 70745 (T E 70751 70753 E)) 70784 70849 (T E 70852 70853 (T E 70855 70855 E))) 70864
  70873 (T (T E 71040 71093 (T E 71096 71102 E)) 71128 71133 (T (T E 71168 71230 E) 71232 71232
  (T E 71236 71236 E)))) 71248 71257 (T (T (T E 71296 71349 (T E 71352 71352 E)) 71360 71369
  (T E 71424 71450 (T E 71453 71466 E))) 71472 71483 (T (T E 71488 71494 (T E 71680 71736 E))
  71840 71922 (T (T E 71935 71942 E) 71945 71945 (T E 71948 71955 E)))))))) 71957 71958 (T (T
  (T (T (T (T (T E 71960 71989 (T E 71991 71992 E)) 71995 71996 (T E 71999 72002 (T E 72016 72025
  E))) 72096 72103 (T (T E 72106 72151 (T E 72154 72159 E)) 72161 72161 (T E 72163 72164 (T E
  72192 72242 E)))) 72245 72254 (T (T (T E 72272 72343 (T E 72349 72349 E)) 72368 72440 (T E
  72704 72712 (T E 72714 72758 E))) 72760 72766 (T (T E 72768 72768 (T E 72784 72812 E)) 72818
  72847 (T (T E 72850 72871 E) 72873 72886 (T E 72960 72966 E))))) 72968 72969 (T (T (T (T E
  72971 73014 (T E 73018 73018 E)) 73020 73021 (T E 73023 73025 (T E 73027 73027 E))) 73030 73031
  (T (T E 73040 73049 (T E 73056 73061 E)) 73063 73064 (T E 73066 73102 (T E 73104 73105 E))))
  73107 73110 (T (T (T E 73112 73112 (T E 73120 73129 E)) 73440 73462 (T E 73472 73488 (T E 73490
  73530 E))) 73534 73536 (T (T E 73552 73561 (T E 73648 73648 E)) 73664 73684 (T (T E 73728 74649
  E) 74752 74862 (T E 74880 75075 E)))))) 77712 77808 (T (T (T (T (T E 77824 78895 (T E 78913
  78918 E)) 82944 83526 (T E 92160 92728 (T E 92736 92766 E))) 92768 92777 (T (T E 92784 92862
  (T E 92864 92873 E)) 92880 92909 (T E 92928 92975 (T E 92992 92995 E)))) 93008 93017 (T (T
  (T E 93019 93025 (T E 93027 93047 E)) 93053 93071 (T E 93760 93846 (T E 93952 94026 E))) 94031
  94087 (T (T E 94095 94111 (T E 94176 94177 E)) 94179 94179 (T (T E 94192 94193 E) 94208 100343
  (T E 100352 101589 E))))) 101632 101640 (T (T (T (T E 110576 110579 (T E 110581 110587 E))
  110589 110590 (T E 110592 110882 (T E 110898 110898 E))) 110928 110930 (T (T E 110933 110933
  (T E 110948 110951 E)) 110960 111355 (T (T E 113664 113770 E) 113776 113788 (T E 113792 113800
  E)))) 113808 113817 (T (T (T E 113822 113822 (T E 119488 119507 E)) 119520 119539 (T E 119648
  119672 (T E 119808 119892 E))) 119894 119964 (T (T E 119966 119967 (T E 119970 119970 E)) 119973
  119974 (T (T E 119977 119980 E) 119982 119993 (T E 119995 119995 E))))))) 119997 120003 (T
  (T (T (T (T (T E 120005 120069 (T E 120071 120074 E)) 120077 120084 (T E 120086 120092 (T E
  120094 120121 E))) 120123 120126 (T (T E 120128 120132 (T E 120134 120134 E)) 120138 120144
  (T E 120146 120485 (T E 120488 120512 E)))) 120514 120538 (T (T (T E 120540 120570 (T E 120572
  120596 E)) 120598 120628 (T E 120630 120654 (T E 120656 120686 E))) 120688 120712 (T (T E 120714
  120744 (T E 120746 120770 E)) 120772 120779 (T (T E 120782 120831 E) 122624 122654 (T E 122661
  122666 E))))) 122880 122886 (T (T (T (T E 122888 122904 (T E 122907 122913 E)) 122915 122916
  (T E 122918 122922 (T E 122928 122989 E))) 123023 123023 (T (T E 123136 123180 (T E 123191
  123197 E)) 123200 123209 (T (T E 123214 123214 E) 123536 123565 (T E 123584 123627 E)))) 123632
  123641 (T (T (T E 124112 124139 (T E 124144 124153 E)) 124896 124902 (T E 124904 124907 (T
  E 124909 124910 E))) 124912 124926 (T (T E 124928 125124 (T E 125127 125135 E)) 125184 125251
  (T (T E 125255 125255 E) 125259 125259 (T E 125264 125273 E)))))) 126065 126123 (T (T (T (T
  (T E 126125 126127 (T E 126129 126132 E)) 126209 126253 (T E 126255 126269 (T E 126464 126467
  E))) 126469 126495 (T (T E 126497 126498 (T E 126500 126500 E)) 126503 126503 (T E 126505 126514
  (T E 126516 126519 E)))) 126521 126521 (T (T (T E 126523 126523 (T E 126530 126530 E)) 126535
  126535 (T E 126537 126537 (T E 126539 126539 E))) 126541 126543 (T (T E 126545 126546 (T E
  126548 126548 E)) 126551 126551 (T (T E 126553 126553 E) 126555 126555 (T E 126557 126557 E)))))
  126559 126559 (T (T (T (T E 126561 126562 (T E 126564 126564 E)) 126567 126570 (T E 126572
  126578 (T E 126580 126583 E))) 126585 126588 (T (T E 126590 126590 (T E 126592 126601 E)) 126603
  126619 (T (T E 126625 126627 E) 126629 126633 (T E 126635 126651 E)))) 127232 127244 (T (T
  (T E 127280 127305 (T E 127312 127337 E)) 127344 127369 (T E 130032 130041 (T E 131072 173791
  E))) 173824 177977 (T (T E 177984 178205 (T E 178208 183969 E)) 183984 191456 (T (T E 194560
  195101 E) 196608 201546 (T E 201552 205743 E)))))))))).

Definition tab_L : rtree :=
  (T (T (T (T (T (T (T (T (T E 65 90 E) 97 122 (T E 170 170 (T E 181 181 E))) 186 186 (T (T E
  192 214 E) 216 246 (T E 248 705 (T E 710 721 E)))) 736 740 (T (T (T E 748 748 E) 750 750 (T
  E 880 884 (T E 886 887 E))) 890 893 (T (T E 895 895 E) 902 902 (T E 904 906 (T E 908 908 E)))))
  910 929 (T (T (T (T E 931 1013 E) 1015 1153 (T E 1162 1327 (T E 1329 1366 E))) 1369 1369 (T
  (T E 1376 1416 E) 1488 1514 (T E 1519 1522 (T E 1568 1610 E)))) 1646 1647 (T (T (T E 1649 1747
  E) 1749 1749 (T E 1765 1766 (T E 1774 1775 E))) 1786 1788 (T (T E 1791 1791 (T E 1808 1808
  E)) 1810 1839 (T E 1869 1957 (T E 1969 1969 E)))))) 1994 2026 (T (T (T (T (T E 2036 2037 E)
  2042 2042 (T E 2048 2069 (T E 2074 2074 E))) 2084 2084 (T (T E 2088 2088 E) 2112 2136 (T E
  2144 2154 (T E 2160 2183 E)))) 2185 2190 (T (T (T E 2208 2249 E) 2308 2361 (T E 2365 2365 (T
  E 2384 2384 E))) 2392 2401 (T (T E 2417 2432 E) 2437 2444 (T E 2447 2448 (T E 2451 2472 E)))))
  2474 2480 (T (T (T (T E 2482 2482 E) 2486 2489 (T E 2493 2493 (T E 2510 2510 E))) 2524 2525
  (T (T E 2527 2529 E) 2544 2545 (T E 2556 2556 (T E 2565 2570 E)))) 2575 2576 (T (T (T E 2579
  2600 E) 2602 2608 (T E 2610 2611 (T E 2613 2614 E))) 2616 2617 (T (T E 2649 2652 (T E 2654
  2654 E)) 2674 2676 (T E 2693 2701 (T E 2703 2705 E))))))) 2707 2728 (T (T (T (T (T (T E 2730
  2736 E) 2738 2739 (T E 2741 2745 (T E 2749 2749 E))) 2768 2768 (T (T E 2784 2785 E) 2809 2809
  (T E 2821 2828 (T E 2831 2832 E)))) 2835 2856 (T (T (T E 2858 2864 E) 2866 2867 (T E 2869 2873
  (T E 2877 2877 E))) 2908 2909 (T (T E 2911 2913 E) 2929 2929 (T E 2947 2947 (T E 2949 2954
  E))))) 2958 2960 (T (T (T (T E 2962 2965 E) 2969 2970 (T E 2972 2972 (T E 2974 2975 E))) 2979
  2980 (T (T E 2984 2986 E) 2990 3001 (T E 3024 3024 (T E 3077 3084 E)))) 3086 3088 (T (T (T
  E 3090 3112 E) 3114 3129 (T E 3133 3133 (T E 3160 3162 E))) 3165 3165 (T (T E 3168 3169 (T
  E 3200 3200 E)) 3205 3212 (T E 3214 3216 (T E 3218 3240 E)))))) 3242 3251 (T (T (T (T (T E
  3253 3257 E) 3261 3261 (T E 3293 3294 (T E 3296 3297 E))) 3313 3314 (T (T E 3332 3340 E) 3342
  3344 (T E 3346 3386 (T E 3389 3389 E)))) 3406 3406 (T (T (T E 3412 3414 E) 3423 3425 (T E 3450
  3455 (T E 3461 3478 E))) 3482 3505 (T (T E 3507 3515 (T E 3517 3517 E)) 3520 3526 (T E 3585
  3632 (T E 3634 3635 E))))) 3648 3654 (T (T (T (T E 3713 3714 E) 3716 3716 (T E 3718 3722 (T
  E 3724 3747 E))) 3749 3749 (T (T E 3751 3760 E) 3762 3763 (T E 3773 3773 (T E 3776 3780 E))))
  3782 3782 (T (T (T E 3804 3807 E) 3840 3840 (T E 3904 3911 (T E 3913 3948 E))) 3976 3980 (T
  (T E 4096 4138 (T E 4159 4159 E)) 4176 4181 (T E 4186 4189 (T E 4193 4193 E)))))))) 4197 4198
  (T (T (T (T (T (T (T E 4206 4208 E) 4213 4225 (T E 4238 4238 (T E 4256 4293 E))) 4295 4295
  (T (T E 4301 4301 E) 4304 4346 (T E 4348 4680 (T E 4682 4685 E)))) 4688 4694 (T (T (T E 4696
  4696 E) 4698 4701 (T E 4704 4744 (T E 4746 4749 E))) 4752 4784 (T (T E 4786 4789 E) 4792 4798
  (T E 4800 4800 (T E 4802 4805 E))))) 4808 4822 (T (T (T (T E 4824 4880 E) 4882 4885 (T E 4888
  4954 (T E 4992 5007 E))) 5024 5109 (T (T E 5112 5117 E) 5121 5740 (T E 5743 5759 (T E 5761
  5786 E)))) 5792 5866 (T (T (T E 5873 5880 E) 5888 5905 (T E 5919 5937 (T E 5952 5969 E))) 5984
  5996 (T (T E 5998 6000 (T E 6016 6067 E)) 6103 6103 (T E 6108 6108 (T E 6176 6264 E)))))) 6272
  6276 (T (T (T (T (T E 6279 6312 E) 6314 6314 (T E 6320 6389 (T E 6400 6430 E))) 6480 6509 (T
  (T E 6512 6516 E) 6528 6571 (T E 6576 6601 (T E 6656 6678 E)))) 6688 6740 (T (T (T E 6823 6823
  E) 6917 6963 (T E 6981 6988 (T E 7043 7072 E))) 7086 7087 (T (T E 7098 7141 E) 7168 7203 (T
  E 7245 7247 (T E 7258 7293 E))))) 7296 7304 (T (T (T (T E 7312 7354 E) 7357 7359 (T E 7401
  7404 (T E 7406 7411 E))) 7413 7414 (T (T E 7418 7418 E) 7424 7615 (T E 7680 7957 (T E 7960
  7965 E)))) 7968 8005 (T (T (T E 8008 8013 E) 8016 8023 (T E 8025 8025 (T E 8027 8027 E))) 8029
  8029 (T (T E 8031 8061 (T E 8064 8116 E)) 8118 8124 (T E 8126 8126 (T E 8130 8132 E)))))))
  8134 8140 (T (T (T (T (T (T E 8144 8147 E) 8150 8155 (T E 8160 8172 (T E 8178 8180 E))) 8182
  8188 (T (T E 8305 8305 E) 8319 8319 (T E 8336 8348 (T E 8450 8450 E)))) 8455 8455 (T (T (T
  E 8458 8467 E) 8469 8469 (T E 8473 8477 (T E 8484 8484 E))) 8486 8486 (T (T E 8488 8488 E)
  8490 8493 (T E 8495 8505 (T E 8508 8511 E))))) 8517 8521 (T (T (T (T E 8526 8526 E) 8579 8580
  (T E 11264 11492 (T E 11499 11502 E))) 11506 11507 (T (T E 11520 11557 E) 11559 11559 (T E
  11565 11565 (T E 11568 11623 E)))) 11631 11631 (T (T (T E 11648 11670 E) 11680 11686 (T E 11688
  11694 (T E 11696 11702 E))) 11704 11710 (T (T E 11712 11718 (T E 11720 11726 E)) 11728 11734
  (T E 11736 11742 (T E 11823 11823 E)))))) 12293 12294 (T (T (T (T (T E 12337 12341 E) 12347
  12348 (T E 12353 12438 (T E 12445 12447 E))) 12449 12538 (T (T E 12540 12543 E) 12549 12591
  (T E 12593 12686 (T E 12704 12735 E)))) 12784 12799 (T (T (T E 13312 19903 E) 19968 42124 (T
  E 42192 42237 (T E 42240 42508 E))) 42512 42527 (T (T E 42538 42539 (T E 42560 42606 E)) 42623
  42653 (T E 42656 42725 (T E 42775 42783 E))))) 42786 42888 (T (T (T (T E 42891 42954 E) 42960
  42961 (T E 42963 42963 (T E 42965 42969 E))) 42994 43009 (T (T E 43011 43013 E) 43015 43018
  (T E 43020 43042 (T E 43072 43123 E)))) 43138 43187 (T (T (T E 43250 43255 E) 43259 43259 (T
  E 43261 43262 (T E 43274 43301 E))) 43312 43334 (T (T E 43360 43388 (T E 43396 43442 E)) 43471
  43471 (T E 43488 43492 (T E 43494 43503 E))))))))) 43514 43518 (T (T (T (T (T (T (T (T E 43520
  43560 E) 43584 43586 (T E 43588 43595 (T E 43616 43638 E))) 43642 43642 (T (T E 43646 43695
  E) 43697 43697 (T E 43701 43702 (T E 43705 43709 E)))) 43712 43712 (T (T (T E 43714 43714 E)
  43739 43741 (T E 43744 43754 (T E 43762 43764 E))) 43777 43782 (T (T E 43785 43790 E) 43793
  43798 (T E 43808 43814 (T E 43816 43822 E))))) 43824 43866 (T (T (T (T E 43868 43881 E) 43888
  44002 (T E 44032 55203 (T E 55216 55238 E))) 55243 55291 (T (T E 63744 64109 E) 64112 64217
  (T E 64256 64262 (T E 64275 64279 E)))) 64285 64285 (T (T (T E 64287 64296 E) 64298 64310 (T
  E 64312 64316 (T E 64318 64318 E))) 64320 64321 (T (T E 64323 64324 (T E 64326 64433 E)) 64467
  64829 (T E 64848 64911 (T E 64914 64967 E)))))) 65008 65019 (T (T (T (T (T E 65136 65140 E)
  65142 65276 (T E 65313 65338 (T E 65345 65370 E))) 65382 65470 (T (T E 65474 65479 E) 65482
  65487 (T E 65490 65495 (T E 65498 65500 E)))) 65536 65547 (T (T (T E 65549 65574 E) 65576 65594
  (T E 65596 65597 (T E 65599 65613 E))) 65616 65629 (T (T E 65664 65786 E) 66176 66204 (T E
  66208 66256 (T E 66304 66335 E))))) 66349 66368 (T (T (T (T E 66370 66377 E) 66384 66421 (T
  E 66432 66461 (T E 66464 66499 E))) 66504 66511 (T (T E 66560 66717 E) 66736 66771 (T E 66776
  66811 (T E 66816 66855 E)))) 66864 66915 (T (T (T E 66928 66938 E) 66940 66954 (T E 66956 66962
  (T E 66964 66965 E))) 66967 66977 (T (T E 66979 66993 (T E 66995 67001 E)) 67003 67004 (T E
  67072 67382 (T E 67392 67413 E))))))) 67424 67431 (T (T (T (T (T (T E 67456 67461 E) 67463
  67504 (T E 67506 67514 (T E 67584 67589 E))) 67592 67592 (T (T E 67594 67637 E) 67639 67640
  (T E 67644 67644 (T E 67647 67669 E)))) 67680 67702 (T (T (T E 67712 67742 E) 67808 67826 (T
  E 67828 67829 (T E 67840 67861 E))) 67872 67897 (T (T E 67968 68023 E) 68030 68031 (T E 68096
  68096 (T E 68112 68115 E))))) 68117 68119 (T (T (T (T E 68121 68149 E) 68192 68220 (T E 68224
  68252 (T E 68288 68295 E))) 68297 68324 (T (T E 68352 68405 E) 68416 68437 (T E 68448 68466
  (T E 68480 68497 E)))) 68608 68680 (T (T (T E 68736 68786 E) 68800 68850 (T E 68864 68899 (T
  E 69248 69289 E))) 69296 69297 (T (T E 69376 69404 (T E 69415 69415 E)) 69424 69445 (T E 69488
  69505 (T E 69552 69572 E)))))) 69600 69622 (T (T (T (T (T E 69635 69687 E) 69745 69746 (T E
  69749 69749 (T E 69763 69807 E))) 69840 69864 (T (T E 69891 69926 E) 69956 69956 (T E 69959
  69959 (T E 69968 70002 E)))) 70006 70006 (T (T (T E 70019 70066 E) 70081 70084 (T E 70106 70106
  (T E 70108 70108 E))) 70144 70161 (T (T E 70163 70187 (T E 70207 70208 E)) 70272 70278 (T E
  70280 70280 (T E 70282 70285 E))))) 70287 70301 (T (T (T (T E 70303 70312 E) 70320 70366 (T
  E 70405 70412 (T E 70415 70416 E))) 70419 70440 (T (T E 70442 70448 E) 70450 70451 (T E 70453
  70457 (T E 70461 70461 E)))) 70480 70480 (T (T (T E 70493 70497 E) 70656 70708 (T E 70727 70730
  (T E 70751 70753 E))) 70784 70831 (T (T E 70852 70853 (T E 70855 70855 E)) 71040 71086 (T E
  71128 71131 (T E 71168 71215 E)))))))) 71236 71236 (T (T (T (T (T (T (T E 71296 71338 E) 71352
  71352 (T E 71424 71450 (T E 71488 71494 E))) 71680 71723 (T (T E 71840 71903 E) 71935 71942
  (T E 71945 71945 (T E 71948 71955 E)))) 71957 71958 (T (T (T E 71960 71983 E) 71999 71999 (T
  E 72001 72001 (T E 72096 72103 E))) 72106 72144 (T (T E 72161 72161 E) 72163 72163 (T E 72192
  72192 (T E 72203 72242 E))))) 72250 72250 (T (T (T (T E 72272 72272 E) 72284 72329 (T E 72349
  72349 (T E 72368 72440 E))) 72704 72712 (T (T E 72714 72750 E) 72768 72768 (T E 72818 72847
  (T E 72960 72966 E)))) 72968 72969 (T (T (T E 72971 73008 E) 73030 73030 (T E 73056 73061 (T
  E 73063 73064 E))) 73066 73097 (T (T E 73112 73112 (T E 73440 73458 E)) 73474 73474 (T E 73476
  73488 (T E 73490 73523 E)))))) 73648 73648 (T (T (T (T (T E 73728 74649 E) 74880 75075 (T E
  77712 77808 (T E 77824 78895 E))) 78913 78918 (T (T E 82944 83526 E) 92160 92728 (T E 92736
  92766 (T E 92784 92862 E)))) 92880 92909 (T (T (T E 92928 92975 E) 92992 92995 (T E 93027 93047
  (T E 93053 93071 E))) 93760 93823 (T (T E 93952 94026 E) 94032 94032 (T E 94099 94111 (T E
  94176 94177 E))))) 94179 94179 (T (T (T (T E 94208 100343 E) 100352 101589 (T E 101632 101640
  (T E 110576 110579 E))) 110581 110587 (T (T E 110589 110590 E) 110592 110882 (T E 110898 110898
  (T E 110928 110930 E)))) 110933 110933 (T (T (T E 110948 110951 E) 110960 111355 (T E 113664
  113770 (T E 113776 113788 E))) 113792 113800 (T (T E 113808 113817 (T E 119808 119892 E)) 119894
  119964 (T E 119966 119967 (T E 119970 119970 E))))))) 119973 119974 (T (T (T (T (T (T E 119977
  119980 E) 119982 119993 (T E 119995 119995 (T E 119997 120003 E))) 120005 120069 (T (T E 120071
  120074 E) 120077 120084 (T E 120086 120092 (T E 120094 120121 E)))) 120123 120126 (T (T (T
  E 120128 120132 E) 120134 120134 (T E 120138 120144 (T E 120146 120485 E))) 120488 120512 (T
  (T E 120514 120538 E) 120540 120570 (T E 120572 120596 (T E 120598 120628 E))))) 120630 120654
  (T (T (T (T E 120656 120686 E) 120688 120712 (T E 120714 120744 (T E 120746 120770 E))) 120772
  120779 (T (T E 122624 122654 E) 122661 122666 (T E 122928 122989 (T E 123136 123180 E)))) 123191
  123197 (T (T (T E 123214 123214 E) 123536 123565 (T E 123584 123627 (T E 124112 124139 E)))
  124896 124902 (T (T E 124904 124907 (T E 124909 124910 E)) 124912 124926 (T E 124928 125124
  (T E 125184 125251 E)))))) 125259 125259 (T (T (T (T (T E 126464 126467 E) 126469 126495 (T
  E 126497 126498 (T E 126500 126500 E))) 126503 126503 (T (T E 126505 126514 E) 126516 126519
  (T E 126521 126521 (T E 126523 126523 E)))) 126530 126530 (T (T (T E 126535 126535 E) 126537
  126537 (T E 126539 126539 (T E 126541 126543 E))) 126545 126546 (T (T E 126548 126548 (T E
  126551 126551 E)) 126553 126553 (T E 126555 126555 (T E 126557 126557 E))))) 126559 126559
  (T (T (T (T E 126561 126562 E) 126564 126564 (T E 126567 126570 (T E 126572 126578 E))) 126580
  126583 (T (T E 126585 126588 E) 126590 126590 (T E 126592 126601 (T E 126603 126619 E)))) 126625
  126627 (T (T (T E 126629 126633 E) 126635 126651 (T E 131072 173791 (T E 173824 177977 E)))
  177984 178205 (T (T E 178208 183969 (T E 183984 191456 E)) 194560 195101 (T E 196608 201546
  (T E 201552 205743 E)))))))))).

Definition tab_Ll : rtree :=
  (T (T (T (T (T (T (T (T (T E 97 122 E) 181 181 (T E 223 246 (T E 248 255 E))) 257 257 (T (T
  E 259 259 E) 261 261 (T E 263 263 (T E 265 265 E)))) 267 267 (T (T (T E 269 269 E) 271 271
  (T E 273 273 (T E 275 275 E))) 277 277 (T (T E 279 279 E) 281 281 (T E 283 283 (T E 285 285
  E))))) 287 287 (T (T (T (T E 289 289 E) 291 291 (T E 293 293 (T E 295 295 E))) 297 297 (T (T
  E 299 299 E) 301 301 (T E 303 303 (T E 305 305 E)))) 307 307 (T (T (T E 309 309 E) 311 312
  (T E 314 314 (T E 316 316 E))) 318 318 (T (T E 320 320 (T E 322 322 E)) 324 324 (T E 326 326
  (T E 328 329 E)))))) 331 331 (T (T (T (T (T E 333 333 E) 335 335 (T E 337 337 (T E 339 339
  E))) 341 341 (T (T E 343 343 E) 345 345 (T E 347 347 (T E 349 349 E)))) 351 351 (T (T (T E
  353 353 E) 355 355 (T E 357 357 (T E 359 359 E))) 361 361 (T (T E 363 363 E) 365 365 (T E 367
  367 (T E 369 369 E))))) 371 371 (T (T (T (T E 373 373 E) 375 375 (T E 378 378 (T E 380 380
  E))) 382 384 (T (T E 387 387 E) 389 389 (T E 392 392 (T E 396 397 E)))) 402 402 (T (T (T E
  405 405 E) 409 411 (T E 414 414 (T E 417 417 E))) 419 419 (T (T E 421 421 (T E 424 424 E))
  426 427 (T E 429 429 (T E 432 432 E))))))) 436 436 (T (T (T (T (T (T E 438 438 E) 441 442 (T
  E 445 447 (T E 454 454 E))) 457 457 (T (T E 460 460 E) 462 462 (T E 464 464 (T E 466 466 E))))
  468 468 (T (T (T E 470 470 E) 472 472 (T E 474 474 (T E 476 477 E))) 479 479 (T (T E 481 481
  E) 483 483 (T E 485 485 (T E 487 487 E))))) 489 489 (T (T (T (T E 491 491 E) 493 493 (T E 495
  496 (T E 499 499 E))) 501 501 (T (T E 505 505 E) 507 507 (T E 509 509 (T E 511 511 E)))) 513
  513 (T (T (T E 515 515 E) 517 517 (T E 519 519 (T E 521 521 E))) 523 523 (T (T E 525 525 (T
  E 527 527 E)) 529 529 (T E 531 531 (T E 533 533 E)))))) 535 535 (T (T (T (T (T E 537 537 E)
  539 539 (T E 541 541 (T E 543 543 E))) 545 545 (T (T E 547 547 E) 549 549 (T E 551 551 (T E
  553 553 E)))) 555 555 (T (T (T E 557 557 E) 559 559 (T E 561 561 (T E 563 569 E))) 572 572
  (T (T E 575 576 E) 578 578 (T E 583 583 (T E 585 585 E))))) 587 587 (T (T (T (T E 589 589 E)
  591 659 (T E 661 687 (T E 881 881 E))) 883 883 (T (T E 887 887 E) 891 893 (T E 912 912 (T E
  940 974 E)))) 976 977 (T (T (T E 981 983 E) 985 985 (T E 987 987 (T E 989 989 E))) 991 991
  (T (T E 993 993 (T E 995 995 E)) 997 997 (T E 999 999 (T E 1001 1001 E)))))))) 1003 1003 (T
  (T (T (T (T (T (T E 1005 1005 E) 1007 1011 (T E 1013 1013 (T E 1016 1016 E))) 1019 1020 (T
  (T E 1072 1119 E) 1121 1121 (T E 1123 1123 (T E 1125 1125 E)))) 1127 1127 (T (T (T E 1129 1129
  E) 1131 1131 (T E 1133 1133 (T E 1135 1135 E))) 1137 1137 (T (T E 1139 1139 E) 1141 1141 (T
  E 1143 1143 (T E 1145 1145 E))))) 1147 1147 (T (T (T (T E 1149 1149 E) 1151 1151 (T E 1153
  1153 (T E 1163 1163 E))) 1165 1165 (T (T E 1167 1167 E) 1169 1169 (T E 1171 1171 (T E 1173
  1173 E)))) 1175 1175 (T (T (T E 1177 1177 E) 1179 1179 (T E 1181 1181 (T E 1183 1183 E))) 1185
  1185 (T (T E 1187 1187 (T E 1189 1189 E)) 1191 1191 (T E 1193 1193 (T E 1195 1195 E)))))) 1197
  1197 (T (T (T (T (T E 1199 1199 E) 1201 1201 (T E 1203 1203 (T E 1205 1205 E))) 1207 1207 (T
  (T E 1209 1209 E) 1211 1211 (T E 1213 1213 (T E 1215 1215 E)))) 1218 1218 (T (T (T E 1220 1220
  E) 1222 1222 (T E 1224 1224 (T E 1226 1226 E))) 1228 1228 (T (T E 1230 1231 E) 1233 1233 (T
  E 1235 1235 (T E 1237 1237 E))))) 1239 1239 (T (T (T (T E 1241 1241 E) 1243 1243 (T E 1245
  1245 (T E 1247 1247 E))) 1249 1249 (T (T E 1251 1251 E) 1253 1253 (T E 1255 1255 (T E 1257
  1257 E)))) 1259 1259 (T (T (T E 1261 1261 E) 1263 1263 (T E 1265 1265 (T E 1267 1267 E))) 1269
  1269 (T (T E 1271 1271 (T E 1273 1273 E)) 1275 1275 (T E 1277 1277 (T E 1279 1279 E)))))))
  1281 1281 (T (T (T (T (T (T E 1283 1283 E) 1285 1285 (T E 1287 1287 (T E 1289 1289 E))) 1291
  1291 (T (T E 1293 1293 E) 1295 1295 (T E 1297 1297 (T E 1299 1299 E)))) 1301 1301 (T (T (T
  E 1303 1303 E) 1305 1305 (T E 1307 1307 (T E 1309 1309 E))) 1311 1311 (T (T E 1313 1313 E)
  1315 1315 (T E 1317 1317 (T E 1319 1319 E))))) 1321 1321 (T (T (T (T E 1323 1323 E) 1325 1325
  (T E 1327 1327 (T E 1376 1416 E))) 4304 4346 (T (T E 4349 4351 E) 5112 5117 (T E 7296 7304
  (T E 7424 7467 E)))) 7531 7543 (T (T (T E 7545 7578 E) 7681 7681 (T E 7683 7683 (T E 7685 7685
  E))) 7687 7687 (T (T E 7689 7689 (T E 7691 7691 E)) 7693 7693 (T E 7695 7695 (T E 7697 7697
  E)))))) 7699 7699 (T (T (T (T (T E 7701 7701 E) 7703 7703 (T E 7705 7705 (T E 7707 7707 E)))
  7709 7709 (T (T E 7711 7711 E) 7713 7713 (T E 7715 7715 (T E 7717 7717 E)))) 7719 7719 (T (T
  (T E 7721 7721 E) 7723 7723 (T E 7725 7725 (T E 7727 7727 E))) 7729 7729 (T (T E 7731 7731
  (T E 7733 7733 E)) 7735 7735 (T E 7737 7737 (T E 7739 7739 E))))) 7741 7741 (T (T (T (T E 7743
  7743 E) 7745 7745 (T E 7747 7747 (T E 7749 7749 E))) 7751 7751 (T (T E 7753 7753 E) 7755 7755
  (T E 7757 7757 (T E 7759 7759 E)))) 7761 7761 (T (T (T E 7763 7763 E) 7765 7765 (T E 7767 7767
  (T E 7769 7769 E))) 7771 7771 (T (T E 7773 7773 (T E 7775 7775 E)) 7777 7777 (T E 7779 7779
  (T E 7781 7781 E))))))))) 7783 7783 (T (T (T (T (T (T (T (T E 7785 7785 E) 7787 7787 (T E 7789
  7789 (T E 7791 7791 E))) 7793 7793 (T (T E 7795 7795 E) 7797 7797 (T E 7799 7799 (T E 7801
  7801 E)))) 7803 7803 (T (T (T E 7805 7805 E) 7807 7807 (T E 7809 7809 (T E 7811 7811 E))) 7813
  7813 (T (T E 7815 7815 E) 7817 7817 (T E 7819 7819 (T E 7821 7821 E))))) 7823 7823 (T (T (T
  (T E 7825 7825 E) 7827 7827 (T E 7829 7837 (T E 7839 7839 E))) 7841 7841 (T (T E 7843 7843
  E) 7845 7845 (T E 7847 7847 (T E 7849 7849 E)))) 7851 7851 (T (T (T E 7853 7853 E) 7855 7855
  (T E 7857 7857 (T E 7859 7859 E))) 7861 7861 (T (T E 7863 7863 (T E 7865 7865 E)) 7867 7867
  (T E 7869 7869 (T E 7871 7871 E)))))) 7873 7873 (T (T (T (T (T E 7875 7875 E) 7877 7877 (T
  E 7879 7879 (T E 7881 7881 E))) 7883 7883 (T (T E 7885 7885 E) 7887 7887 (T E 7889 7889 (T
  E 7891 7891 E)))) 7893 7893 (T (T (T E 7895 7895 E) 7897 7897 (T E 7899 7899 (T E 7901 7901
  E))) 7903 7903 (T (T E 7905 7905 E) 7907 7907 (T E 7909 7909 (T E 7911 7911 E))))) 7913 7913
  (T (T (T (T E 7915 7915 E) 7917 7917 (T E 7919 7919 (T E 7921 7921 E))) 7923 7923 (T (T E 7925
  7925 E) 7927 7927 (T E 7929 7929 (T E 7931 7931 E)))) 7933 7933 (T (T (T E 7935 7943 E) 7952
  7957 (T E 7968 7975 (T E 7984 7991 E))) 8000 8005 (T (T E 8016 8023 (T E 8032 8039 E)) 8048
  8061 (T E 8064 8071 (T E 8080 8087 E))))))) 8096 8103 (T (T (T (T (T (T E 8112 8116 E) 8118
  8119 (T E 8126 8126 (T E 8130 8132 E))) 8134 8135 (T (T E 8144 8147 E) 8150 8151 (T E 8160
  8167 (T E 8178 8180 E)))) 8182 8183 (T (T (T E 8458 8458 E) 8462 8463 (T E 8467 8467 (T E 8495
  8495 E))) 8500 8500 (T (T E 8505 8505 E) 8508 8509 (T E 8518 8521 (T E 8526 8526 E))))) 8580
  8580 (T (T (T (T E 11312 11359 E) 11361 11361 (T E 11365 11366 (T E 11368 11368 E))) 11370
  11370 (T (T E 11372 11372 E) 11377 11377 (T E 11379 11380 (T E 11382 11387 E)))) 11393 11393
  (T (T (T E 11395 11395 E) 11397 11397 (T E 11399 11399 (T E 11401 11401 E))) 11403 11403 (T
  (T E 11405 11405 (T E 11407 11407 E)) 11409 11409 (T E 11411 11411 (T E 11413 11413 E))))))
  11415 11415 (T (T (T (T (T E 11417 11417 E) 11419 11419 (T E 11421 11421 (T E 11423 11423 E)))
  11425 11425 (T (T E 11427 11427 E) 11429 11429 (T E 11431 11431 (T E 11433 11433 E)))) 11435
  11435 (T (T (T E 11437 11437 E) 11439 11439 (T E 11441 11441 (T E 11443 11443 E))) 11445 11445
  (T (T E 11447 11447 (T E 11449 11449 E)) 11451 11451 (T E 11453 11453 (T E 11455 11455 E)))))
  11457 11457 (T (T (T (T E 11459 11459 E) 11461 11461 (T E 11463 11463 (T E 11465 11465 E)))
  11467 11467 (T (T E 11469 11469 E) 11471 11471 (T E 11473 11473 (T E 11475 11475 E)))) 11477
  11477 (T (T (T E 11479 11479 E) 11481 11481 (T E 11483 11483 (T E 11485 11485 E))) 11487 11487
  (T (T E 11489 11489 (T E 11491 11492 E)) 11500 11500 (T E 11502 11502 (T E 11507 11507 E))))))))
  11520 11557 (T (T (T (T (T (T (T E 11559 11559 E) 11565 11565 (T E 42561 42561 (T E 42563 42563
  E))) 42565 42565 (T (T E 42567 42567 E) 42569 42569 (T E 42571 42571 (T E 42573 42573 E))))
  42575 42575 (T (T (T E 42577 42577 E) 42579 42579 (T E 42581 42581 (T E 42583 42583 E))) 42585
  42585 (T (T E 42587 42587 E) 42589 42589 (T E 42591 42591 (T E 42593 42593 E))))) 42595 42595
  (T (T (T (T E 42597 42597 E) 42599 42599 (T E 42601 42601 (T E 42603 42603 E))) 42605 42605
  (T (T E 42625 42625 E) 42627 42627 (T E 42629 42629 (T E 42631 42631 E)))) 42633 42633 (T (T
  (T E 42635 42635 E) 42637 42637 (T E 42639 42639 (T E 42641 42641 E))) 42643 42643 (T (T E
  42645 42645 (T E 42647 42647 E)) 42649 42649 (T E 42651 42651 (T E 42787 42787 E)))))) 42789
  42789 (T (T (T (T (T E 42791 42791 E) 42793 42793 (T E 42795 42795 (T E 42797 42797 E))) 42799
  42801 (T (T E 42803 42803 E) 42805 42805 (T E 42807 42807 (T E 42809 42809 E)))) 42811 42811
  (T (T (T E 42813 42813 E) 42815 42815 (T E 42817 42817 (T E 42819 42819 E))) 42821 42821 (T
  (T E 42823 42823 E) 42825 42825 (T E 42827 42827 (T E 42829 42829 E))))) 42831 42831 (T (T
  (T (T E 42833 42833 E) 42835 42835 (T E 42837 42837 (T E 42839 42839 E))) 42841 42841 (T (T
  E 42843 42843 E) 42845 42845 (T E 42847 42847 (T E 42849 42849 E)))) 42851 42851 (T (T (T E
  42853 42853 E) 42855 42855 (T E 42857 42857 (T E 42859 42859 E))) 42861 42861 (T (T E 42863
  42863 (T E 42865 42872 E)) 42874 42874 (T E 42876 42876 (T E 42879 42879 E))))))) 42881 42881
  (T (T (T (T (T (T E 42883 42883 E) 42885 42885 (T E 42887 42887 (T E 42892 42892 E))) 42894
  42894 (T (T E 42897 42897 E) 42899 42901 (T E 42903 42903 (T E 42905 42905 E)))) 42907 42907
  (T (T (T E 42909 42909 E) 42911 42911 (T E 42913 42913 (T E 42915 42915 E))) 42917 42917 (T
  (T E 42919 42919 E) 42921 42921 (T E 42927 42927 (T E 42933 42933 E))))) 42935 42935 (T (T
  (T (T E 42937 42937 E) 42939 42939 (T E 42941 42941 (T E 42943 42943 E))) 42945 42945 (T (T
  E 42947 42947 E) 42952 42952 (T E 42954 42954 (T E 42961 42961 E)))) 42963 42963 (T (T (T E
  42965 42965 E) 42967 42967 (T E 42969 42969 (T E 42998 42998 E))) 43002 43002 (T (T E 43824
  43866 (T E 43872 43880 E)) 43888 43967 (T E 64256 64262 (T E 64275 64279 E)))))) 65345 65370
  (T (T (T (T (T E 66600 66639 E) 66776 66811 (T E 66967 66977 (T E 66979 66993 E))) 66995 67001
  (T (T E 67003 67004 E) 68800 68850 (T E 71872 71903 (T E 93792 93823 E)))) 119834 119859 (T
  (T (T E 119886 119892 E) 119894 119911 (T E 119938 119963 (T E 119990 119993 E))) 119995 119995
  (T (T E 119997 120003 (T E 120005 120015 E)) 120042 120067 (T E 120094 120119 (T E 120146 120171
  E))))) 120198 120223 (T (T (T (T E 120250 120275 E) 120302 120327 (T E 120354 120379 (T E 120406
  120431 E))) 120458 120485 (T (T E 120514 120538 E) 120540 120545 (T E 120572 120596 (T E 120598
  120603 E)))) 120630 120654 (T (T (T E 120656 120661 E) 120688 120712 (T E 120714 120719 (T
  E 120746 120770 E))) 120772 120777 (T (T E 120779 120779 (T E 122624 122633 E)) 122635 122654
  (T E 122661 122666 (T E 125218 125251 E)))))))))).

Definition tab_Lu : rtree :=
  (T (T (T (T (T (T (T (T (T E 65 90 E) 192 214 (T E 216 222 (T E 256 256 E))) 258 258 (T (T
  E 260 260 E) 262 262 (T E 264 264 (T E 266 266 E)))) 268 268 (T (T (T E 270 270 E) 272 272
  (T E 274 274 (T E 276 276 E))) 278 278 (T (T E 280 280 E) 282 282 (T E 284 284 (T E 286 286
  E))))) 288 288 (T (T (T (T E 290 290 E) 292 292 (T E 294 294 (T E 296 296 E))) 298 298 (T (T
  E 300 300 E) 302 302 (T E 304 304 (T E 306 306 E)))) 308 308 (T (T (T E 310 310 E) 313 313
  (T E 315 315 (T E 317 317 E))) 319 319 (T (T E 321 321 E) 323 323 (T E 325 325 (T E 327 327
  E)))))) 330 330 (T (T (T (T (T E 332 332 E) 334 334 (T E 336 336 (T E 338 338 E))) 340 340
  (T (T E 342 342 E) 344 344 (T E 346 346 (T E 348 348 E)))) 350 350 (T (T (T E 352 352 E) 354
  354 (T E 356 356 (T E 358 358 E))) 360 360 (T (T E 362 362 E) 364 364 (T E 366 366 (T E 368
  368 E))))) 370 370 (T (T (T (T E 372 372 E) 374 374 (T E 376 377 (T E 379 379 E))) 381 381
  (T (T E 385 386 E) 388 388 (T E 390 391 (T E 393 395 E)))) 398 401 (T (T (T E 403 404 E) 406
  408 (T E 412 413 (T E 415 416 E))) 418 418 (T (T E 420 420 E) 422 423 (T E 425 425 (T E 428
  428 E))))))) 430 431 (T (T (T (T (T (T E 433 435 E) 437 437 (T E 439 440 (T E 444 444 E)))
  452 452 (T (T E 455 455 E) 458 458 (T E 461 461 (T E 463 463 E)))) 465 465 (T (T (T E 467 467
  E) 469 469 (T E 471 471 (T E 473 473 E))) 475 475 (T (T E 478 478 E) 480 480 (T E 482 482 (T
  E 484 484 E))))) 486 486 (T (T (T (T E 488 488 E) 490 490 (T E 492 492 (T E 494 494 E))) 497
  497 (T (T E 500 500 E) 502 504 (T E 506 506 (T E 508 508 E)))) 510 510 (T (T (T E 512 512 E)
  514 514 (T E 516 516 (T E 518 518 E))) 520 520 (T (T E 522 522 E) 524 524 (T E 526 526 (T E
  528 528 E)))))) 530 530 (T (T (T (T (T E 532 532 E) 534 534 (T E 536 536 (T E 538 538 E)))
  540 540 (T (T E 542 542 E) 544 544 (T E 546 546 (T E 548 548 E)))) 550 550 (T (T (T E 552 552
  E) 554 554 (T E 556 556 (T E 558 558 E))) 560 560 (T (T E 562 562 E) 570 571 (T E 573 574 (T
  E 577 577 E))))) 579 582 (T (T (T (T E 584 584 E) 586 586 (T E 588 588 (T E 590 590 E))) 880
  880 (T (T E 882 882 E) 886 886 (T E 895 895 (T E 902 902 E)))) 904 906 (T (T (T E 908 908 E)
  910 911 (T E 913 929 (T E 931 939 E))) 975 975 (T (T E 978 980 (T E 984 984 E)) 986 986 (T
  E 988 988 (T E 990 990 E)))))))) 992 992 (T (T (T (T (T (T (T E 994 994 E) 996 996 (T E 998
  998 (T E 1000 1000 E))) 1002 1002 (T (T E 1004 1004 E) 1006 1006 (T E 1012 1012 (T E 1015 1015
  E)))) 1017 1018 (T (T (T E 1021 1071 E) 1120 1120 (T E 1122 1122 (T E 1124 1124 E))) 1126 1126
  (T (T E 1128 1128 E) 1130 1130 (T E 1132 1132 (T E 1134 1134 E))))) 1136 1136 (T (T (T (T E
  1138 1138 E) 1140 1140 (T E 1142 1142 (T E 1144 1144 E))) 1146 1146 (T (T E 1148 1148 E) 1150
  1150 (T E 1152 1152 (T E 1162 1162 E)))) 1164 1164 (T (T (T E 1166 1166 E) 1168 1168 (T E 1170
  1170 (T E 1172 1172 E))) 1174 1174 (T (T E 1176 1176 E) 1178 1178 (T E 1180 1180 (T E 1182
  1182 E)))))) 1184 1184 (T (T (T (T (T E 1186 1186 E) 1188 1188 (T E 1190 1190 (T E 1192 1192
  E))) 1194 1194 (T (T E 1196 1196 E) 1198 1198 (T E 1200 1200 (T E 1202 1202 E)))) 1204 1204
  (T (T (T E 1206 1206 E) 1208 1208 (T E 1210 1210 (T E 1212 1212 E))) 1214 1214 (T (T E 1216
  1217 E) 1219 1219 (T E 1221 1221 (T E 1223 1223 E))))) 1225 1225 (T (T (T (T E 1227 1227 E)
  1229 1229 (T E 1232 1232 (T E 1234 1234 E))) 1236 1236 (T (T E 1238 1238 E) 1240 1240 (T E
  1242 1242 (T E 1244 1244 E)))) 1246 1246 (T (T (T E 1248 1248 E) 1250 1250 (T E 1252 1252 (T
  E 1254 1254 E))) 1256 1256 (T (T E 1258 1258 (T E 1260 1260 E)) 1262 1262 (T E 1264 1264 (T
  E 1266 1266 E))))))) 1268 1268 (T (T (T (T (T (T E 1270 1270 E) 1272 1272 (T E 1274 1274 (T
  E 1276 1276 E))) 1278 1278 (T (T E 1280 1280 E) 1282 1282 (T E 1284 1284 (T E 1286 1286 E))))
  1288 1288 (T (T (T E 1290 1290 E) 1292 1292 (T E 1294 1294 (T E 1296 1296 E))) 1298 1298 (T
  (T E 1300 1300 E) 1302 1302 (T E 1304 1304 (T E 1306 1306 E))))) 1308 1308 (T (T (T (T E 1310
  1310 E) 1312 1312 (T E 1314 1314 (T E 1316 1316 E))) 1318 1318 (T (T E 1320 1320 E) 1322 1322
  (T E 1324 1324 (T E 1326 1326 E)))) 1329 1366 (T (T (T E 4256 4293 E) 4295 4295 (T E 4301 4301
  (T E 5024 5109 E))) 7312 7354 (T (T E 7357 7359 E) 7680 7680 (T E 7682 7682 (T E 7684 7684
  E)))))) 7686 7686 (T (T (T (T (T E 7688 7688 E) 7690 7690 (T E 7692 7692 (T E 7694 7694 E)))
  7696 7696 (T (T E 7698 7698 E) 7700 7700 (T E 7702 7702 (T E 7704 7704 E)))) 7706 7706 (T (T
  (T E 7708 7708 E) 7710 7710 (T E 7712 7712 (T E 7714 7714 E))) 7716 7716 (T (T E 7718 7718
  E) 7720 7720 (T E 7722 7722 (T E 7724 7724 E))))) 7726 7726 (T (T (T (T E 7728 7728 E) 7730
  7730 (T E 7732 7732 (T E 7734 7734 E))) 7736 7736 (T (T E 7738 7738 E) 7740 7740 (T E 7742
  7742 (T E 7744 7744 E)))) 7746 7746 (T (T (T E 7748 7748 E) 7750 7750 (T E 7752 7752 (T E 7754
  7754 E))) 7756 7756 (T (T E 7758 7758 (T E 7760 7760 E)) 7762 7762 (T E 7764 7764 (T E 7766
  7766 E))))))))) 7768 7768 (T (T (T (T (T (T (T (T E 7770 7770 E) 7772 7772 (T E 7774 7774 (T
  E 7776 7776 E))) 7778 7778 (T (T E 7780 7780 E) 7782 7782 (T E 7784 7784 (T E 7786 7786 E))))
  7788 7788 (T (T (T E 7790 7790 E) 7792 7792 (T E 7794 7794 (T E 7796 7796 E))) 7798 7798 (T
  (T E 7800 7800 E) 7802 7802 (T E 7804 7804 (T E 7806 7806 E))))) 7808 7808 (T (T (T (T E 7810
  7810 E) 7812 7812 (T E 7814 7814 (T E 7816 7816 E))) 7818 7818 (T (T E 7820 7820 E) 7822 7822
  (T E 7824 7824 (T E 7826 7826 E)))) 7828 7828 (T (T (T E 7838 7838 E) 7840 7840 (T E 7842 7842
  (T E 7844 7844 E))) 7846 7846 (T (T E 7848 7848 E) 7850 7850 (T E 7852 7852 (T E 7854 7854
  E)))))) 7856 7856 (T (T (T (T (T E 7858 7858 E) 7860 7860 (T E 7862 7862 (T E 7864 7864 E)))
  7866 7866 (T (T E 7868 7868 E) 7870 7870 (T E 7872 7872 (T E 7874 7874 E)))) 7876 7876 (T (T
  (T E 7878 7878 E) 7880 7880 (T E 7882 7882 (T E 7884 7884 E))) 7886 7886 (T (T E 7888 7888
  E) 7890 7890 (T E 7892 7892 (T E 7894 7894 E))))) 7896 7896 (T (T (T (T E 7898 7898 E) 7900
  7900 (T E 7902 7902 (T E 7904 7904 E))) 7906 7906 (T (T E 7908 7908 E) 7910 7910 (T E 7912
  7912 (T E 7914 7914 E)))) 7916 7916 (T (T (T E 7918 7918 E) 7920 7920 (T E 7922 7922 (T E 7924
  7924 E))) 7926 7926 (T (T E 7928 7928 (T E 7930 7930 E)) 7932 7932 (T E 7934 7934 (T E 7944
  7951 E))))))) 7960 7965 (T (T (T (T (T (T E 7976 7983 E) 7992 7999 (T E 8008 8013 (T E 8025
  8025 E))) 8027 8027 (T (T E 8029 8029 E) 8031 8031 (T E 8040 8047 (T E 8120 8123 E)))) 8136
  8139 (T (T (T E 8152 8155 E) 8168 8172 (T E 8184 8187 (T E 8450 8450 E))) 8455 8455 (T (T E
  8459 8461 E) 8464 8466 (T E 8469 8469 (T E 8473 8477 E))))) 8484 8484 (T (T (T (T E 8486 8486
  E) 8488 8488 (T E 8490 8493 (T E 8496 8499 E))) 8510 8511 (T (T E 8517 8517 E) 8579 8579 (T
  E 11264 11311 (T E 11360 11360 E)))) 11362 11364 (T (T (T E 11367 11367 E) 11369 11369 (T E
  11371 11371 (T E 11373 11376 E))) 11378 11378 (T (T E 11381 11381 E) 11390 11392 (T E 11394
  11394 (T E 11396 11396 E)))))) 11398 11398 (T (T (T (T (T E 11400 11400 E) 11402 11402 (T E
  11404 11404 (T E 11406 11406 E))) 11408 11408 (T (T E 11410 11410 E) 11412 11412 (T E 11414
  11414 (T E 11416 11416 E)))) 11418 11418 (T (T (T E 11420 11420 E) 11422 11422 (T E 11424 11424
  (T E 11426 11426 E))) 11428 11428 (T (T E 11430 11430 E) 11432 11432 (T E 11434 11434 (T E
  11436 11436 E))))) 11438 11438 (T (T (T (T E 11440 11440 E) 11442 11442 (T E 11444 11444 (T
  E 11446 11446 E))) 11448 11448 (T (T E 11450 11450 E) 11452 11452 (T E 11454 11454 (T E 11456
  11456 E)))) 11458 11458 (T (T (T E 11460 11460 E) 11462 11462 (T E 11464 11464 (T E 11466 11466
  E))) 11468 11468 (T (T E 11470 11470 (T E 11472 11472 E)) 11474 11474 (T E 11476 11476 (T E
  11478 11478 E)))))))) 11480 11480 (T (T (T (T (T (T (T E 11482 11482 E) 11484 11484 (T E 11486
  11486 (T E 11488 11488 E))) 11490 11490 (T (T E 11499 11499 E) 11501 11501 (T E 11506 11506
  (T E 42560 42560 E)))) 42562 42562 (T (T (T E 42564 42564 E) 42566 42566 (T E 42568 42568 (T
  E 42570 42570 E))) 42572 42572 (T (T E 42574 42574 E) 42576 42576 (T E 42578 42578 (T E 42580
  42580 E))))) 42582 42582 (T (T (T (T E 42584 42584 E) 42586 42586 (T E 42588 42588 (T E 42590
  42590 E))) 42592 42592 (T (T E 42594 42594 E) 42596 42596 (T E 42598 42598 (T E 42600 42600
  E)))) 42602 42602 (T (T (T E 42604 42604 E) 42624 42624 (T E 42626 42626 (T E 42628 42628 E)))
  42630 42630 (T (T E 42632 42632 E) 42634 42634 (T E 42636 42636 (T E 42638 42638 E)))))) 42640
  42640 (T (T (T (T (T E 42642 42642 E) 42644 42644 (T E 42646 42646 (T E 42648 42648 E))) 42650
  42650 (T (T E 42786 42786 E) 42788 42788 (T E 42790 42790 (T E 42792 42792 E)))) 42794 42794
  (T (T (T E 42796 42796 E) 42798 42798 (T E 42802 42802 (T E 42804 42804 E))) 42806 42806 (T
  (T E 42808 42808 E) 42810 42810 (T E 42812 42812 (T E 42814 42814 E))))) 42816 42816 (T (T
  (T (T E 42818 42818 E) 42820 42820 (T E 42822 42822 (T E 42824 42824 E))) 42826 42826 (T (T
  E 42828 42828 E) 42830 42830 (T E 42832 42832 (T E 42834 42834 E)))) 42836 42836 (T (T (T E
  42838 42838 E) 42840 42840 (T E 42842 42842 (T E 42844 42844 E))) 42846 42846 (T (T E 42848
  42848 (T E 42850 42850 E)) 42852 42852 (T E 42854 42854 (T E 42856 42856 E))))))) 42858 42858
  (T (T (T (T (T (T E 42860 42860 E) 42862 42862 (T E 42873 42873 (T E 42875 42875 E))) 42877
  42878 (T (T E 42880 42880 E) 42882 42882 (T E 42884 42884 (T E 42886 42886 E)))) 42891 42891
  (T (T (T E 42893 42893 E) 42896 42896 (T E 42898 42898 (T E 42902 42902 E))) 42904 42904 (T
  (T E 42906 42906 E) 42908 42908 (T E 42910 42910 (T E 42912 42912 E))))) 42914 42914 (T (T
  (T (T E 42916 42916 E) 42918 42918 (T E 42920 42920 (T E 42922 42926 E))) 42928 42932 (T (T
  E 42934 42934 E) 42936 42936 (T E 42938 42938 (T E 42940 42940 E)))) 42942 42942 (T (T (T E
  42944 42944 E) 42946 42946 (T E 42948 42951 (T E 42953 42953 E))) 42960 42960 (T (T E 42966
  42966 E) 42968 42968 (T E 42997 42997 (T E 65313 65338 E)))))) 66560 66599 (T (T (T (T (T E
  66736 66771 E) 66928 66938 (T E 66940 66954 (T E 66956 66962 E))) 66964 66965 (T (T E 68736
  68786 E) 71840 71871 (T E 93760 93791 (T E 119808 119833 E)))) 119860 119885 (T (T (T E 119912
  119937 E) 119964 119964 (T E 119966 119967 (T E 119970 119970 E))) 119973 119974 (T (T E 119977
  119980 E) 119982 119989 (T E 120016 120041 (T E 120068 120069 E))))) 120071 120074 (T (T (T
  (T E 120077 120084 E) 120086 120092 (T E 120120 120121 (T E 120123 120126 E))) 120128 120132
  (T (T E 120134 120134 E) 120138 120144 (T E 120172 120197 (T E 120224 120249 E)))) 120276 120301
  (T (T (T E 120328 120353 E) 120380 120405 (T E 120432 120457 (T E 120488 120512 E))) 120546
  120570 (T (T E 120604 120628 (T E 120662 120686 E)) 120720 120744 (T E 120778 120778 (T E 125184
  125217 E)))))))))).

Definition tab_M : rtree :=
  (T (T (T (T (T (T (T (T E 768 879 E) 1155 1161 (T E 1425 1469 E)) 1471 1471 (T (T E 1473 1474
  E) 1476 1477 (T E 1479 1479 (T E 1552 1562 E)))) 1611 1631 (T (T (T E 1648 1648 E) 1750 1756
  (T E 1759 1764 (T E 1767 1768 E))) 1770 1773 (T (T E 1809 1809 E) 1840 1866 (T E 1958 1968
  (T E 2027 2035 E))))) 2045 2045 (T (T (T (T E 2070 2073 E) 2075 2083 (T E 2085 2087 E)) 2089
  2093 (T (T E 2137 2139 E) 2200 2207 (T E 2250 2273 (T E 2275 2307 E)))) 2362 2364 (T (T (T
  E 2366 2383 E) 2385 2391 (T E 2402 2403 (T E 2433 2435 E))) 2492 2492 (T (T E 2494 2500 E)
  2503 2504 (T E 2507 2509 (T E 2519 2519 E)))))) 2530 2531 (T (T (T (T (T E 2558 2558 E) 2561
  2563 (T E 2620 2620 E)) 2622 2626 (T (T E 2631 2632 E) 2635 2637 (T E 2641 2641 (T E 2672 2673
  E)))) 2677 2677 (T (T (T E 2689 2691 E) 2748 2748 (T E 2750 2757 (T E 2759 2761 E))) 2763 2765
  (T (T E 2786 2787 E) 2810 2815 (T E 2817 2819 (T E 2876 2876 E))))) 2878 2884 (T (T (T (T E
  2887 2888 E) 2891 2893 (T E 2901 2903 (T E 2914 2915 E))) 2946 2946 (T (T E 3006 3010 E) 3014
  3016 (T E 3018 3021 (T E 3031 3031 E)))) 3072 3076 (T (T (T E 3132 3132 E) 3134 3140 (T E 3142
  3144 (T E 3146 3149 E))) 3157 3158 (T (T E 3170 3171 E) 3201 3203 (T E 3260 3260 (T E 3262
  3268 E))))))) 3270 3272 (T (T (T (T (T (T E 3274 3277 E) 3285 3286 (T E 3298 3299 E)) 3315
  3315 (T (T E 3328 3331 E) 3387 3388 (T E 3390 3396 (T E 3398 3400 E)))) 3402 3405 (T (T (T
  E 3415 3415 E) 3426 3427 (T E 3457 3459 (T E 3530 3530 E))) 3535 3540 (T (T E 3542 3542 E)
  3544 3551 (T E 3570 3571 (T E 3633 3633 E))))) 3636 3642 (T (T (T (T E 3655 3662 E) 3761 3761
  (T E 3764 3772 (T E 3784 3790 E))) 3864 3865 (T (T E 3893 3893 E) 3895 3895 (T E 3897 3897
  (T E 3902 3903 E)))) 3953 3972 (T (T (T E 3974 3975 E) 3981 3991 (T E 3993 4028 (T E 4038 4038
  E))) 4139 4158 (T (T E 4182 4185 E) 4190 4192 (T E 4194 4196 (T E 4199 4205 E)))))) 4209 4212
  (T (T (T (T (T E 4226 4237 E) 4239 4239 (T E 4250 4253 E)) 4957 4959 (T (T E 5906 5909 E) 5938
  5940 (T E 5970 5971 (T E 6002 6003 E)))) 6068 6099 (T (T (T E 6109 6109 E) 6155 6157 (T E 6159
  6159 (T E 6277 6278 E))) 6313 6313 (T (T E 6432 6443 E) 6448 6459 (T E 6679 6683 (T E 6741
  6750 E))))) 6752 6780 (T (T (T (T E 6783 6783 E) 6832 6862 (T E 6912 6916 (T E 6964 6980 E)))
  7019 7027 (T (T E 7040 7042 E) 7073 7085 (T E 7142 7155 (T E 7204 7223 E)))) 7376 7378 (T (T
  (T E 7380 7400 E) 7405 7405 (T E 7412 7412 (T E 7415 7417 E))) 7616 7679 (T (T E 8400 8432
  E) 11503 11505 (T E 11647 11647 (T E 11744 11775 E)))))))) 12330 12335 (T (T (T (T (T (T (T
  E 12441 12442 E) 42607 42610 (T E 42612 42621 E)) 42654 42655 (T (T E 42736 42737 E) 43010
  43010 (T E 43014 43014 (T E 43019 43019 E)))) 43043 43047 (T (T (T E 43052 43052 E) 43136 43137
  (T E 43188 43205 (T E 43232 43249 E))) 43263 43263 (T (T E 43302 43309 E) 43335 43347 (T E
  43392 43395 (T E 43443 43456 E))))) 43493 43493 (T (T (T (T E 43561 43574 E) 43587 43587 (T
  E 43596 43597 (T E 43643 43645 E))) 43696 43696 (T (T E 43698 43700 E) 43703 43704 (T E 43710
  43711 (T E 43713 43713 E)))) 43755 43759 (T (T (T E 43765 43766 E) 44003 44010 (T E 44012 44013
  (T E 64286 64286 E))) 65024 65039 (T (T E 65056 65071 E) 66045 66045 (T E 66272 66272 (T E
  66422 66426 E)))))) 68097 68099 (T (T (T (T (T E 68101 68102 E) 68108 68111 (T E 68152 68154
  E)) 68159 68159 (T (T E 68325 68326 E) 68900 68903 (T E 69291 69292 (T E 69373 69375 E))))
  69446 69456 (T (T (T E 69506 69509 E) 69632 69634 (T E 69688 69702 (T E 69744 69744 E))) 69747
  69748 (T (T E 69759 69762 E) 69808 69818 (T E 69826 69826 (T E 69888 69890 E))))) 69927 69940
  (T (T (T (T E 69957 69958 E) 70003 70003 (T E 70016 70018 (T E 70067 70080 E))) 70089 70092
  (T (T E 70094 70095 E) 70188 70199 (T E 70206 70206 (T E 70209 70209 E)))) 70367 70378 (T (T
  (T E 70400 70403 E) 70459 70460 (T E 70462 70468 (T E 70471 70472 E))) 70475 70477 (T (T E
  70487 70487 E) 70498 70499 (T E 70502 70508 (T E 70512 70516 E))))))) 70709 70726 (T (T (T
  (T (T (T E 70750 70750 E) 70832 70851 (T E 71087 71093 E)) 71096 71104 (T (T E 71132 71133
  E) 71216 71232 (T E 71339 71351 (T E 71453 71467 E)))) 71724 71738 (T (T (T E 71984 71989 E)
  71991 71992 (T E 71995 71998 (T E 72000 72000 E))) 72002 72003 (T (T E 72145 72151 E) 72154
  72160 (T E 72164 72164 (T E 72193 72202 E))))) 72243 72249 (T (T (T (T E 72251 72254 E) 72263
  72263 (T E 72273 72283 (T E 72330 72345 E))) 72751 72758 (T (T E 72760 72767 E) 72850 72871
  (T E 72873 72886 (T E 73009 73014 E)))) 73018 73018 (T (T (T E 73020 73021 E) 73023 73029 (T
  E 73031 73031 (T E 73098 73102 E))) 73104 73105 (T (T E 73107 73111 E) 73459 73462 (T E 73472
  73473 (T E 73475 73475 E)))))) 73524 73530 (T (T (T (T (T E 73534 73538 E) 78912 78912 (T E
  78919 78933 E)) 92912 92916 (T (T E 92976 92982 E) 94031 94031 (T E 94033 94087 (T E 94095
  94098 E)))) 94180 94180 (T (T (T E 94192 94193 E) 113821 113822 (T E 118528 118573 (T E 118576
  118598 E))) 119141 119145 (T (T E 119149 119154 E) 119163 119170 (T E 119173 119179 (T E 119210
  119213 E))))) 119362 119364 (T (T (T (T E 121344 121398 E) 121403 121452 (T E 121461 121461
  (T E 121476 121476 E))) 121499 121503 (T (T E 121505 121519 E) 122880 122886 (T E 122888 122904
  (T E 122907 122913 E)))) 122915 122916 (T (T (T E 122918 122922 E) 123023 123023 (T E 123184
  123190 (T E 123566 123566 E))) 123628 123631 (T (T E 124140 124143 E) 125136 125142 (T E 125252
  125258 (T E 917760 917999 E))))))))).

Definition tab_N : rtree :=
  (T (T (T (T (T (T (T E 48 57 E) 178 179 (T E 185 185 E)) 188 190 (T (T E 1632 1641 E) 1776
  1785 (T E 1984 1993 E))) 2406 2415 (T (T (T E 2534 2543 E) 2548 2553 (T E 2662 2671 E)) 2790
  2799 (T (T E 2918 2927 E) 2930 2935 (T E 3046 3058 (T E 3174 3183 E))))) 3192 3198 (T (T (T
  (T E 3302 3311 E) 3416 3422 (T E 3430 3448 E)) 3558 3567 (T (T E 3664 3673 E) 3792 3801 (T
  E 3872 3891 E))) 4160 4169 (T (T (T E 4240 4249 E) 4969 4988 (T E 5870 5872 E)) 6112 6121 (T
  (T E 6128 6137 E) 6160 6169 (T E 6470 6479 (T E 6608 6618 E)))))) 6784 6793 (T (T (T (T (T
  E 6800 6809 E) 6992 7001 (T E 7088 7097 E)) 7232 7241 (T (T E 7248 7257 E) 8304 8304 (T E 8308
  8313 E))) 8320 8329 (T (T (T E 8528 8578 E) 8581 8585 (T E 9312 9371 E)) 9450 9471 (T (T E
  10102 10131 E) 11517 11517 (T E 12295 12295 (T E 12321 12329 E))))) 12344 12346 (T (T (T (T
  E 12690 12693 E) 12832 12841 (T E 12872 12879 E)) 12881 12895 (T (T E 12928 12937 E) 12977
  12991 (T E 42528 42537 (T E 42726 42735 E)))) 43056 43061 (T (T (T E 43216 43225 E) 43264 43273
  (T E 43472 43481 E)) 43504 43513 (T (T E 43600 43609 E) 44016 44025 (T E 65296 65305 (T E 65799
  65843 E))))))) 65856 65912 (T (T (T (T (T (T E 65930 65931 E) 66273 66299 (T E 66336 66339
  E)) 66369 66369 (T (T E 66378 66378 E) 66513 66517 (T E 66720 66729 E))) 67672 67679 (T (T
  (T E 67705 67711 E) 67751 67759 (T E 67835 67839 E)) 67862 67867 (T (T E 68028 68029 E) 68032
  68047 (T E 68050 68095 (T E 68160 68168 E))))) 68221 68222 (T (T (T (T E 68253 68255 E) 68331
  68335 (T E 68440 68447 E)) 68472 68479 (T (T E 68521 68527 E) 68858 68863 (T E 68912 68921
  E))) 69216 69246 (T (T (T E 69405 69414 E) 69457 69460 (T E 69573 69579 E)) 69714 69743 (T
  (T E 69872 69881 E) 69942 69951 (T E 70096 70105 (T E 70113 70132 E)))))) 70384 70393 (T (T
  (T (T (T E 70736 70745 E) 70864 70873 (T E 71248 71257 E)) 71360 71369 (T (T E 71472 71483
  E) 71904 71922 (T E 72016 72025 E))) 72784 72812 (T (T (T E 73040 73049 E) 73120 73129 (T E
  73552 73561 E)) 73664 73684 (T (T E 74752 74862 E) 92768 92777 (T E 92864 92873 (T E 93008
  93017 E))))) 93019 93025 (T (T (T (T E 93824 93846 E) 119488 119507 (T E 119520 119539 E))
  119648 119672 (T (T E 120782 120831 E) 123200 123209 (T E 123632 123641 (T E 124144 124153
  E)))) 125127 125135 (T (T (T E 125264 125273 E) 126065 126123 (T E 126125 126127 E)) 126129
  126132 (T (T E 126209 126253 E) 126255 126269 (T E 127232 127244 (T E 130032 130041 E)))))))).

Definition tab_Nd : rtree :=
  (T (T (T (T (T (T E 48 57 E) 1632 1641 (T E 1776 1785 E)) 1984 1993 (T (T E 2406 2415 E) 2534
  2543 (T E 2662 2671 E))) 2790 2799 (T (T (T E 2918 2927 E) 3046 3055 (T E 3174 3183 E)) 3302
  3311 (T (T E 3430 3439 E) 3558 3567 (T E 3664 3673 E)))) 3792 3801 (T (T (T (T E 3872 3881
  E) 4160 4169 (T E 4240 4249 E)) 6112 6121 (T (T E 6160 6169 E) 6470 6479 (T E 6608 6617 E)))
  6784 6793 (T (T (T E 6800 6809 E) 6992 7001 (T E 7088 7097 E)) 7232 7241 (T (T E 7248 7257
  E) 42528 42537 (T E 43216 43225 E))))) 43264 43273 (T (T (T (T (T E 43472 43481 E) 43504 43513
  (T E 43600 43609 E)) 44016 44025 (T (T E 65296 65305 E) 66720 66729 (T E 68912 68921 E))) 69734
  69743 (T (T (T E 69872 69881 E) 69942 69951 (T E 70096 70105 E)) 70384 70393 (T (T E 70736
  70745 E) 70864 70873 (T E 71248 71257 E)))) 71360 71369 (T (T (T (T E 71472 71481 E) 71904
  71913 (T E 72016 72025 E)) 72784 72793 (T (T E 73040 73049 E) 73120 73129 (T E 73552 73561
  E))) 92768 92777 (T (T (T E 92864 92873 E) 93008 93017 (T E 120782 120831 E)) 123200 123209
  (T (T E 123632 123641 E) 124144 124153 (T E 125264 125273 (T E 130032 130041 E))))))).

Definition tab_Pc : rtree :=
  (T (T E 95 95 (T E 8255 8256 E)) 8276 8276 (T (T E 65075 65076 E) 65101 65103 (T E 65343 65343
  E))).

Definition tab_Sc : rtree :=
  (T (T (T (T E 36 36 E) 162 165 (T E 1423 1423 (T E 1547 1547 E))) 2046 2047 (T (T E 2546 2547
  (T E 2555 2555 E)) 2801 2801 (T E 3065 3065 (T E 3647 3647 E)))) 6107 6107 (T (T (T E 8352
  8384 E) 43064 43064 (T E 65020 65020 (T E 65129 65129 E))) 65284 65284 (T (T E 65504 65505
  (T E 65509 65510 E)) 73693 73696 (T E 123647 123647 (T E 126128 126128 E))))).

Definition tab_Word : rtree :=
  (T (T (T (T (T (T (T (T (T E 48 57 (T E 65 90 E)) 95 95 (T E 97 122 (T E 170 170 E))) 181 181
  (T (T E 186 186 (T E 192 214 E)) 216 246 (T E 248 705 (T E 710 721 E)))) 736 740 (T (T (T E
  748 748 (T E 750 750 E)) 768 884 (T E 886 887 (T E 890 893 E))) 895 895 (T (T E 902 902 (T
  E 904 906 E)) 908 908 (T E 910 929 (T E 931 1013 E))))) 1015 1153 (T (T (T (T E 1155 1327 (T
  E 1329 1366 E)) 1369 1369 (T E 1376 1416 (T E 1425 1469 E))) 1471 1471 (T (T E 1473 1474 (T
  E 1476 1477 E)) 1479 1479 (T E 1488 1514 (T E 1519 1522 E)))) 1552 1562 (T (T (T E 1568 1641
  (T E 1646 1747 E)) 1749 1756 (T E 1759 1768 (T E 1770 1788 E))) 1791 1791 (T (T E 1808 1866
  (T E 1869 1969 E)) 1984 2037 (T E 2042 2042 (T E 2045 2045 E)))))) 2048 2093 (T (T (T (T (T
  E 2112 2139 (T E 2144 2154 E)) 2160 2183 (T E 2185 2190 (T E 2200 2273 E))) 2275 2403 (T (T
  E 2406 2415 (T E 2417 2435 E)) 2437 2444 (T E 2447 2448 (T E 2451 2472 E)))) 2474 2480 (T (T
  (T E 2482 2482 (T E 2486 2489 E)) 2492 2500 (T E 2503 2504 (T E 2507 2510 E))) 2519 2519 (T
  (T E 2524 2525 (T E 2527 2531 E)) 2534 2545 (T E 2556 2556 (T E 2558 2558 E))))) 2561 2563
  (T (T (T (T E 2565 2570 (T E 2575 2576 E)) 2579 2600 (T E 2602 2608 (T E 2610 2611 E))) 2613
  2614 (T (T E 2616 2617 (T E 2620 2620 E)) 2622 2626 (T E 2631 2632 (T E 2635 2637 E)))) 2641
  2641 (T (T (T E 2649 2652 (T E 2654 2654 E)) 2662 2677 (T E 2689 2691 (T E 2693 2701 E))) 2703
  2705 (T (T E 2707 2728 (T E 2730 2736 E)) 2738 2739 (T E 2741 2745 (T E 2748 2757 E)))))))
  2759 2761 (T (T (T (T (T (T E 2763 2765 (T E 2768 2768 E)) 2784 2787 (T E 2790 2799 (T E 2809
  2815 E))) 2817 2819 (T (T E 2821 2828 (T E 2831 2832 E)) 2835 2856 (T E 2858 2864 (T E 2866
  2867 E)))) 2869 2873 (T (T (T E 2876 2884 (T E 2887 2888 E)) 2891 2893 (T E 2901 2903 (T E
  2908 2909 E))) 2911 2915 (T (T E 2918 2927 (T E 2929 2929 E)) 2946 2947 (T E 2949 2954 (T E
  2958 2960 E))))) 2962 2965 (T (T (T (T E 2969 2970 (T E 2972 2972 E)) 2974 2975 (T E 2979 2980
  (T E 2984 2986 E))) 2990 3001 (T (T E 3006 3010 (T E 3014 3016 E)) 3018 3021 (T E 3024 3024
  (T E 3031 3031 E)))) 3046 3055 (T (T (T E 3072 3084 (T E 3086 3088 E)) 3090 3112 (T E 3114
  3129 (T E 3132 3140 E))) 3142 3144 (T (T E 3146 3149 (T E 3157 3158 E)) 3160 3162 (T E 3165
  3165 (T E 3168 3171 E)))))) 3174 3183 (T (T (T (T (T E 3200 3203 (T E 3205 3212 E)) 3214 3216
  (T E 3218 3240 (T E 3242 3251 E))) 3253 3257 (T (T E 3260 3268 (T E 3270 3272 E)) 3274 3277
  (T E 3285 3286 (T E 3293 3294 E)))) 3296 3299 (T (T (T E 3302 3311 (T E 3313 3315 E)) 3328
  3340 (T E 3342 3344 (T E 3346 3396 E))) 3398 3400 (T (T E 3402 3406 (T E 3412 3415 E)) 3423
  3427 (T E 3430 3439 (T E 3450 3455 E))))) 3457 3459 (T (T (T (T E 3461 3478 (T E 3482 3505
  E)) 3507 3515 (T E 3517 3517 (T E 3520 3526 E))) 3530 3530 (T (T E 3535 3540 (T E 3542 3542
  E)) 3544 3551 (T E 3558 3567 (T E 3570 3571 E)))) 3585 3642 (T (T (T E 3648 3662 (T E 3664
  3673 E)) 3713 3714 (T E 3716 3716 (T E 3718 3722 E))) 3724 3747 (T (T E 3749 3749 (T E 3751
  3773 E)) 3776 3780 (T (T E 3782 3782 E) 3784 3790 (T E 3792 3801 E)))))))) 3804 3807 (T (T
  (T (T (T (T (T E 3840 3840 (T E 3864 3865 E)) 3872 3881 (T E 3893 3893 (T E 3895 3895 E)))
  3897 3897 (T (T E 3902 3911 (T E 3913 3948 E)) 3953 3972 (T E 3974 3991 (T E 3993 4028 E))))
  4038 4038 (T (T (T E 4096 4169 (T E 4176 4253 E)) 4256 4293 (T E 4295 4295 (T E 4301 4301 E)))
  4304 4346 (T (T E 4348 4680 (T E 4682 4685 E)) 4688 4694 (T E 4696 4696 (T E 4698 4701 E)))))
  4704 4744 (T (T (T (T E 4746 4749 (T E 4752 4784 E)) 4786 4789 (T E 4792 4798 (T E 4800 4800
  E))) 4802 4805 (T (T E 4808 4822 (T E 4824 4880 E)) 4882 4885 (T E 4888 4954 (T E 4957 4959
  E)))) 4992 5007 (T (T (T E 5024 5109 (T E 5112 5117 E)) 5121 5740 (T E 5743 5759 (T E 5761
  5786 E))) 5792 5866 (T (T E 5870 5880 (T E 5888 5909 E)) 5919 5940 (T E 5952 5971 (T E 5984
  5996 E)))))) 5998 6000 (T (T (T (T (T E 6002 6003 (T E 6016 6099 E)) 6103 6103 (T E 6108 6109
  (T E 6112 6121 E))) 6155 6157 (T (T E 6159 6169 (T E 6176 6264 E)) 6272 6314 (T E 6320 6389
  (T E 6400 6430 E)))) 6432 6443 (T (T (T E 6448 6459 (T E 6470 6509 E)) 6512 6516 (T E 6528
  6571 (T E 6576 6601 E))) 6608 6617 (T (T E 6656 6683 (T E 6688 6750 E)) 6752 6780 (T E 6783
  6793 (T E 6800 6809 E))))) 6823 6823 (T (T (T (T E 6832 6862 (T E 6912 6988 E)) 6992 7001 (T
  E 7019 7027 (T E 7040 7155 E))) 7168 7223 (T (T E 7232 7241 (T E 7245 7293 E)) 7296 7304 (T
  E 7312 7354 (T E 7357 7359 E)))) 7376 7378 (T (T (T E 7380 7418 (T E 7424 7957 E)) 7960 7965
  (T E 7968 8005 (T E 8008 8013 E))) 8016 8023 (T (T E 8025 8025 (T E 8027 8027 E)) 8029 8029
  (T E 8031 8061 (T E 8064 8116 E))))))) 8118 8124 (T (T (T (T (T (T E 8126 8126 (T E 8130 8132
  E)) 8134 8140 (T E 8144 8147 (T E 8150 8155 E))) 8160 8172 (T (T E 8178 8180 (T E 8182 8188
  E)) 8204 8205 (T E 8255 8256 (T E 8276 8276 E)))) 8305 8305 (T (T (T E 8319 8319 (T E 8336
  8348 E)) 8400 8432 (T E 8450 8450 (T E 8455 8455 E))) 8458 8467 (T (T E 8469 8469 (T E 8473
  8477 E)) 8484 8484 (T E 8486 8486 (T E 8488 8488 E))))) 8490 8493 (T (T (T (T E 8495 8505 (T
  E 8508 8511 E)) 8517 8521 (T E 8526 8526 (T E 8544 8584 E))) 9398 9449 (T (T E 11264 11492
  (T E 11499 11507 E)) 11520 11557 (T E 11559 11559 (T E 11565 11565 E)))) 11568 11623 (T (T
  (T E 11631 11631 (T E 11647 11670 E)) 11680 11686 (T E 11688 11694 (T E 11696 11702 E))) 11704
  11710 (T (T E 11712 11718 (T E 11720 11726 E)) 11728 11734 (T E 11736 11742 (T E 11744 11775
  E)))))) 11823 11823 (T (T (T (T (T E 12293 12295 (T E 12321 12335 E)) 12337 12341 (T E 12344
  12348 (T E 12353 12438 E))) 12441 12442 (T (T E 12445 12447 (T E 12449 12538 E)) 12540 12543
  (T E 12549 12591 (T E 12593 12686 E)))) 12704 12735 (T (T (T E 12784 12799 (T E 13312 19903
  E)) 19968 42124 (T E 42192 42237 (T E 42240 42508 E))) 42512 42539 (T (T E 42560 42610 (T E
  42612 42621 E)) 42623 42737 (T E 42775 42783 (T E 42786 42888 E))))) 42891 42954 (T (T (T (T
  E 42960 42961 (T E 42963 42963 E)) 42965 42969 (T E 42994 43047 (T E 43052 43052 E))) 43072
  43123 (T (T E 43136 43205 (T E 43216 43225 E)) 43232 43255 (T E 43259 43259 (T E 43261 43309
  E)))) 43312 43347 (T (T (T E 43360 43388 (T E 43392 43456 E)) 43471 43481 (T E 43488 43518
  (T E 43520 43574 E))) 43584 43597 (T (T E 43600 43609 (T E 43616 43638 E)) 43642 43714 (T (T
  E 43739 43741 E) 43744 43759 (T E 43762 43766 E))))))))) 43777 43782 (T (T (T (T (T (T (T (T
  E 43785 43790 (T E 43793 43798 E)) 43808 43814 (T E 43816 43822 (T E 43824 43866 E))) 43868
  43881 (T (T E 43888 44010 (T E 44012 44013 E)) 44016 44025 (T E 44032 55203 (T E 55216 55238
  E)))) 55243 55291 (T (T (T E 63744 64109 (T E 64112 64217 E)) 64256 64262 (T E 64275 64279
  (T E 64285 64296 E))) 64298 64310 (T (T E 64312 64316 (T E 64318 64318 E)) 64320 64321 (T E
  64323 64324 (T E 64326 64433 E))))) 64467 64829 (T (T (T (T E 64848 64911 (T E 64914 64967
  E)) 65008 65019 (T E 65024 65039 (T E 65056 65071 E))) 65075 65076 (T (T E 65101 65103 (T E
  65136 65140 E)) 65142 65276 (T E 65296 65305 (T E 65313 65338 E)))) 65343 65343 (T (T (T E
  65345 65370 (T E 65382 65470 E)) 65474 65479 (T E 65482 65487 (T E 65490 65495 E))) 65498 65500
  (T (T E 65536 65547 (T E 65549 65574 E)) 65576 65594 (T E 65596 65597 (T E 65599 65613 E))))))
  65616 65629 (T (T (T (T (T E 65664 65786 (T E 65856 65908 E)) 66045 66045 (T E 66176 66204
  (T E 66208 66256 E))) 66272 66272 (T (T E 66304 66335 (T E 66349 66378 E)) 66384 66426 (T E
  66432 66461 (T E 66464 66499 E)))) 66504 66511 (T (T (T E 66513 66517 (T E 66560 66717 E))
  66720 66729 (T E 66736 66771 (T E 66776 66811 E))) 66816 66855 (T (T E 66864 66915 (T E 66928
  66938 E)) 66940 66954 (T E 66956 66962 (T E 66964 66965 E))))) 66967 66977 (T (T (T (T E 66979
  66993 (T E 66995 67001 E)) 67003 67004 (T E 67072 67382 (T E 67392 67413 E))) 67424 67431 (T
  (T E 67456 67461 (T E 67463 67504 E)) 67506 67514 (T E 67584 67589 (T E 67592 67592 E)))) 67594
  67637 (T (T (T E 67639 67640 (T E 67644 67644 E)) 67647 67669 (T E 67680 67702 (T E 67712 67742
  E))) 67808 67826 (T (T E 67828 67829 (T E 67840 67861 E)) 67872 67897 (T E 67968 68023 (T E
  68030 68031 E))))))) 68096 68099 (T (T (T (T (T (T E 68101 68102 (T E 68108 68115 E)) 68117
  68119 (T E 68121 68149 (T E 68152 68154 E))) 68159 68159 (T (T E 68192 68220 (T E 68224 68252
  E)) 68288 68295 (T E 68297 68326 (T E 68352 68405 E)))) 68416 68437 (T (T (T E 68448 68466
  (T E 68480 68497 E)) 68608 68680 (T E 68736 68786 (T E 68800 68850 E))) 68864 68903 (T (T E
  68912 68921 (T E 69248 69289 E)) 69291 69292 (T E 69296 69297 (T E 69373 69404 E))))) 69415
  69415 (T (T (T (T E 69424 69456 (T E 69488 69509 E)) 69552 69572 (T E 69600 69622 (T E 69632
  69702 E))) 69734 69749 (T (T E 69759 69818 (T E 69826 69826 E)) 69840 69864 (T E 69872 69881
  (T E 69888 69940 E)))) 69942 69951 (T (T (T E 69956 69959 (T E 69968 70003 E)) 70006 70006
  (T E 70016 70084 (T E 70089 70092 E))) 70094 70106 (T (T E 70108 70108 (T E 70144 70161 E))
  70163 70199 (T E 70206 70209 (T E 70272 70278 E)))))) 70280 70280 (T (T (T (T (T E 70282 70285
  (T E 70287 70301 E)) 70303 70312 (T E 70320 70378 (T E 70384 70393 E))) 70400 70403 (T (T E
  70405 70412 (T E 70415 70416 E)) 70419 70440 (T E 70442 70448 (T E 70450 70451 E)))) 70453
  70457 (T (T (T E 70459 70468 (T E 70471 70472 E)) 70475 70477 (T E 70480 70480 (T E 70487 70487
  E))) 70493 70499 (T (T E 70502 70508 (T E 70512 70516 E)) 70656 70730 (T E 70736 70745 (T E
  70750 70753 E))))) 70784 70853 (T (T (T (T E 70855 70855 (T E 70864 70873 E)) 71040 71093 (T
  E 71096 71104 (T E 71128 71133 E))) 71168 71232 (T (T E 71236 71236 (T E 71248 71257 E)) 71296
  71352 (T E 71360 71369 (T E 71424 71450 E)))) 71453 71467 (T (T (T E 71472 71481 (T E 71488
  71494 E)) 71680 71738 (T E 71840 71913 (T E 71935 71942 E))) 71945 71945 (T (T E 71948 71955
  (T E 71957 71958 E)) 71960 71989 (T (T E 71991 71992 E) 71995 72003 (T E 72016 72025 E))))))))
  72096 72103 (T (T (T (T (T (T (T E 72106 72151 (T E 72154 72161 E)) 72163 72164 (T E 72192
  72254 (T E 72263 72263 E))) 72272 72345 (T (T E 72349 72349 (T E 72368 72440 E)) 72704 72712
  (T E 72714 72758 (T E 72760 72768 E)))) 72784 72793 (T (T (T E 72818 72847 (T E 72850 72871
  E)) 72873 72886 (T E 72960 72966 (T E 72968 72969 E))) 72971 73014 (T (T E 73018 73018 (T E
  73020 73021 E)) 73023 73031 (T E 73040 73049 (T E 73056 73061 E))))) 73063 73064 (T (T (T (T
  E 73066 73102 (T E 73104 73105 E)) 73107 73112 (T E 73120 73129 (T E 73440 73462 E))) 73472
  73488 (T (T E 73490 73530 (T E 73534 73538 E)) 73552 73561 (T E 73648 73648 (T E 73728 74649
  E)))) 74752 74862 (T (T (T E 74880 75075 (T E 77712 77808 E)) 77824 78895 (T E 78912 78933
  (T E 82944 83526 E))) 92160 92728 (T (T E 92736 92766 (T E 92768 92777 E)) 92784 92862 (T E
  92864 92873 (T E 92880 92909 E)))))) 92912 92916 (T (T (T (T (T E 92928 92982 (T E 92992 92995
  E)) 93008 93017 (T E 93027 93047 (T E 93053 93071 E))) 93760 93823 (T (T E 93952 94026 (T E
  94031 94087 E)) 94095 94111 (T E 94176 94177 (T E 94179 94180 E)))) 94192 94193 (T (T (T E
  94208 100343 (T E 100352 101589 E)) 101632 101640 (T E 110576 110579 (T E 110581 110587 E)))
  110589 110590 (T (T E 110592 110882 (T E 110898 110898 E)) 110928 110930 (T E 110933 110933
  (T E 110948 110951 E))))) 110960 111355 (T (T (T (T E 113664 113770 (T E 113776 113788 E))
  113792 113800 (T E 113808 113817 (T E 113821 113822 E))) 118528 118573 (T (T E 118576 118598
  (T E 119141 119145 E)) 119149 119154 (T E 119163 119170 (T E 119173 119179 E)))) 119210 119213
  (T (T (T E 119362 119364 (T E 119808 119892 E)) 119894 119964 (T E 119966 119967 (T E 119970
  119970 E))) 119973 119974 (T (T E 119977 119980 (T E 119982 119993 E)) 119995 119995 (T E 119997
  120003 (T E 120005 120069 E))))))) 120071 120074 (T (T (T (T (T (T E 120077 120084 (T E 120086
  120092 E)) 120094 120121 (T E 120123 120126 (T E 120128 120132 E))) 120134 120134 (T (T E 120138
  120144 (T E 120146 120485 E)) 120488 120512 (T E 120514 120538 (T E 120540 120570 E)))) 120572
  120596 (T (T (T E 120598 120628 (T E 120630 120654 E)) 120656 120686 (T E 120688 120712 (T
  E 120714 120744 E))) 120746 120770 (T (T E 120772 120779 (T E 120782 120831 E)) 121344 121398
  (T E 121403 121452 (T E 121461 121461 E))))) 121476 121476 (T (T (T (T E 121499 121503 (T E
  121505 121519 E)) 122624 122654 (T E 122661 122666 (T E 122880 122886 E))) 122888 122904 (T
  (T E 122907 122913 (T E 122915 122916 E)) 122918 122922 (T E 122928 122989 (T E 123023 123023
  E)))) 123136 123180 (T (T (T E 123184 123197 (T E 123200 123209 E)) 123214 123214 (T E 123536
  123566 (T E 123584 123641 E))) 124112 124153 (T (T E 124896 124902 (T E 124904 124907 E)) 124909
  124910 (T E 124912 124926 (T E 124928 125124 E)))))) 125136 125142 (T (T (T (T (T E 125184
  125259 (T E 125264 125273 E)) 126464 126467 (T E 126469 126495 (T E 126497 126498 E))) 126500
  126500 (T (T E 126503 126503 (T E 126505 126514 E)) 126516 126519 (T E 126521 126521 (T E 126523
  126523 E)))) 126530 126530 (T (T (T E 126535 126535 (T E 126537 126537 E)) 126539 126539 (T
  E 126541 126543 (T E 126545 126546 E))) 126548 126548 (T (T E 126551 126551 (T E 126553 126553
  E)) 126555 126555 (T E 126557 126557 (T E 126559 126559 E))))) 126561 126562 (T (T (T (T E
  126564 126564 (T E 126567 126570 E)) 126572 126578 (T E 126580 126583 (T E 126585 126588 E)))
  126590 126590 (T (T E 126592 126601 (T E 126603 126619 E)) 126625 126627 (T E 126629 126633
  (T E 126635 126651 E)))) 127280 127305 (T (T (T E 127312 127337 (T E 127344 127369 E)) 130032
  130041 (T E 131072 173791 (T E 173824 177977 E))) 177984 178205 (T (T E 178208 183969 (T E
  183984 191456 E)) 194560 195101 (T (T E 196608 201546 E) 201552 205743 (T E 917760 917999 E)))))))))).

(** Lower case: (first, last, step, new first); code points first, first+step, … last
    are mapped with a constant offset. *)
Definition lower_runs : list (N * N * N * N) :=
  [ (65, 90, 1, 97)
  ; (256, 302, 2, 257)
  ; (306, 310, 2, 307)
  ; (313, 327, 2, 314)
  ; (330, 374, 2, 331)
  ; (376, 376, 1, 255)
  ; (377, 381, 2, 378)
  ; (385, 385, 1, 595)
  ; (386, 388, 2, 387)
  ; (390, 390, 1, 596)
  ; (391, 391, 1, 392)
  ; (393, 394, 1, 598)
  ; (395, 395, 1, 396)
  ; (398, 398, 1, 477)
  ; (399, 399, 1, 601)
  ; (400, 400, 1, 603)
  ; (401, 401, 1, 402)
  ; (403, 403, 1, 608)
  ; (404, 404, 1, 611)
  ; (406, 406, 1, 617)
  ; (407, 407, 1, 616)
  ; (408, 408, 1, 409)
  ; (412, 412, 1, 623)
  ; (413, 413, 1, 626)
  ; (415, 415, 1, 629)
  ; (416, 420, 2, 417)
  ; (422, 422, 1, 640)
  ; (423, 423, 1, 424)
  ; (425, 425, 1, 643)
  ; (428, 428, 1, 429)
  ; (430, 430, 1, 648)
  ; (431, 431, 1, 432)
  ; (433, 434, 1, 650)
  ; (435, 437, 2, 436)
  ; (439, 439, 1, 658)
  ; (440, 440, 1, 441)
  ; (444, 444, 1, 445)
  ; (452, 452, 1, 454)
  ; (453, 453, 1, 454)
  ; (455, 455, 1, 457)
  ; (456, 456, 1, 457)
  ; (458, 458, 1, 460)
  ; (459, 475, 2, 460)
  ; (478, 494, 2, 479)
  ; (497, 497, 1, 499)
  ; (498, 500, 2, 499)
  ; (502, 502, 1, 405)
  ; (503, 503, 1, 447)
  ; (504, 542, 2, 505)
  ; (544, 544, 1, 414)
  ; (546, 562, 2, 547)
  ; (570, 570, 1, 11365)
  ; (571, 571, 1, 572)
  ; (573, 573, 1, 410)
  ; (574, 574, 1, 11366)
  ; (577, 577, 1, 578)
  ; (579, 579, 1, 384)
  ; (580, 580, 1, 649)
  ; (581, 581, 1, 652)
  ; (582, 590, 2, 583)
  ; (880, 882, 2, 881)
  ; (886, 886, 1, 887)
  ; (895, 895, 1, 1011)
  ; (902, 902, 1, 940)
  ; (904, 906, 1, 941)
  ; (908, 908, 1, 972)
  ; (910, 911, 1, 973)
  ; (913, 929, 1, 945)
  ; (931, 939, 1, 963)
  ; (975, 975, 1, 983)
  ; (984, 1006, 2, 985)
  ; (1012, 1012, 1, 952)
  ; (1015, 1015, 1, 1016)
  ; (1017, 1017, 1, 1010)
  ; (1018, 1018, 1, 1019)
  ; (1021, 1023, 1, 891)
  ; (1024, 1039, 1, 1104)
  ; (1040, 1071, 1, 1072)
  ; (1120, 1152, 2, 1121)
  ; (1162, 1214, 2, 1163)
  ; (1216, 1216, 1, 1231)
  ; (1217, 1229, 2, 1218)
  ; (1232, 1326, 2, 1233)
  ; (1329, 1366, 1, 1377)
  ; (4256, 4293, 1, 11520)
  ; (4295, 4295, 1, 11559)
  ; (4301, 4301, 1, 11565)
  ; (5024, 5103, 1, 43888)
  ; (5104, 5109, 1, 5112)
  ; (7312, 7354, 1, 4304)
  ; (7357, 7359, 1, 4349)
  ; (7680, 7828, 2, 7681)
  ; (7838, 7838, 1, 223)
  ; (7840, 7934, 2, 7841)
  ; (7944, 7951, 1, 7936)
  ; (7960, 7965, 1, 7952)
  ; (7976, 7983, 1, 7968)
  ; (7992, 7999, 1, 7984)
  ; (8008, 8013, 1, 8000)
  ; (8025, 8031, 2, 8017)
  ; (8040, 8047, 1, 8032)
  ; (8072, 8079, 1, 8064)
  ; (8088, 8095, 1, 8080)
  ; (8104, 8111, 1, 8096)
  ; (8120, 8121, 1, 8112)
  ; (8122, 8123, 1, 8048)
  ; (8124, 8124, 1, 8115)
  ; (8136, 8139, 1, 8050)
  ; (8140, 8140, 1, 8131)
  ; (8152, 8153, 1, 8144)
  ; (8154, 8155, 1, 8054)
  ; (8168, 8169, 1, 8160)
  ; (8170, 8171, 1, 8058)
  ; (8172, 8172, 1, 8165)
  ; (8184, 8185, 1, 8056)
  ; (8186, 8187, 1, 8060)
  ; (8188, 8188, 1, 8179)
  ; (8486, 8486, 1, 969)
  ; (8490, 8490, 1, 107)
  ; (8491, 8491, 1, 229)
  ; (8498, 8498, 1, 8526)
  ; (8544, 8559, 1, 8560)
  ; (8579, 8579, 1, 8580)
  ; (9398, 9423, 1, 9424)
  ; (11264, 11311, 1, 11312)
  ; (11360, 11360, 1, 11361)
  ; (11362, 11362, 1, 619)
  ; (11363, 11363, 1, 7549)
  ; (11364, 11364, 1, 637)
  ; (11367, 11371, 2, 11368)
  ; (11373, 11373, 1, 593)
  ; (11374, 11374, 1, 625)
  ; (11375, 11375, 1, 592)
  ; (11376, 11376, 1, 594)
  ; (11378, 11378, 1, 11379)
  ; (11381, 11381, 1, 11382)
  ; (11390, 11391, 1, 575)
  ; (11392, 11490, 2, 11393)
  ; (11499, 11501, 2, 11500)
  ; (11506, 11506, 1, 11507)
  ; (42560, 42604, 2, 42561)
  ; (42624, 42650, 2, 42625)
  ; (42786, 42798, 2, 42787)
  ; (42802, 42862, 2, 42803)
  ; (42873, 42875, 2, 42874)
  ; (42877, 42877, 1, 7545)
  ; (42878, 42886, 2, 42879)
  ; (42891, 42891, 1, 42892)
  ; (42893, 42893, 1, 613)
  ; (42896, 42898, 2, 42897)
  ; (42902, 42920, 2, 42903)
  ; (42922, 42922, 1, 614)
  ; (42923, 42923, 1, 604)
  ; (42924, 42924, 1, 609)
  ; (42925, 42925, 1, 620)
  ; (42926, 42926, 1, 618)
  ; (42928, 42928, 1, 670)
  ; (42929, 42929, 1, 647)
  ; (42930, 42930, 1, 669)
  ; (42931, 42931, 1, 43859)
  ; (42932, 42946, 2, 42933)
  ; (42948, 42948, 1, 42900)
  ; (42949, 42949, 1, 642)
  ; (42950, 42950, 1, 7566)
  ; (42951, 42953, 2, 42952)
  ; (42960, 42960, 1, 42961)
  ; (42966, 42968, 2, 42967)
  ; (42997, 42997, 1, 42998)
  ; (65313, 65338, 1, 65345)
  ; (66560, 66599, 1, 66600)
  ; (66736, 66771, 1, 66776)
  ; (66928, 66938, 1, 66967)
  ; (66940, 66954, 1, 66979)
  ; (66956, 66962, 1, 66995)
  ; (66964, 66965, 1, 67003)
  ; (68736, 68786, 1, 68800)
  ; (71840, 71871, 1, 71872)
  ; (93760, 93791, 1, 93792)
  ; (125184, 125217, 1, 125218) ].

Definition lower_special : list (N * list N) :=
  [ (304, [105; 775]) ].

Fixpoint lower_in (rs : list (N * N * N * N)) (c : N) : list N :=
  match rs with
  | [] => [c]
  | (lo, hi, st, nw) :: rs' =>
      if (lo <=? c) && (c <=? hi) && ((c - lo) mod st =? 0) then [nw + (c - lo)]
      else lower_in rs' c
  end.

(** [char::to_lowercase] *)
Definition lower_char (c : N) : list N :=
  if c <? 65 then [c] else
  match find (fun p => fst p =? c) lower_special with
  | Some p => snd p
  | None => lower_in lower_runs c
  end.
