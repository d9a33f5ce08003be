(** Automata for documents with footnotes. *)
From Verif Require Import Str Unicode Regex RegexParse RegexSnips RegexTheory RegexAuto Lib ModelBase ModelHtml ModelInline ProofPlain ProofParas ProofText ProofWeave ProofListText ProofTags ProofListDoc SpecPlain SpecText SpecLists SpecFootnotes.
#[local] Arguments u : simpl never.
(** Where a reference may follow, and where a line may end. *)
Definition fbefore : list nat := (before_reference ++ [103; 104])%nat.
Definition fends : list nat := (au_final item_text ++ [103; 104; 105; 106; 108])%nat.
Definition ftext : list trans := Eval vm_compute in around_references.
Definition fsource_a : auto := Eval vm_compute in mk_auto
  (ftext ++ map (fun q => (q, ch 91, 100%nat)) fbefore
   ++ [(100, digit, 101); (101, digit, 101); (101, ch 33, 102); (101, ch 93, 103); (102, ch 93, 105)]%nat) 0%nat fends.
Definition idc : cls := one_of (u "abcdefghijklmnopqrstuvwxyzABCDEFGHIJKLMNOPQRSTUVWXYZ0123456789-").
Definition run (q : nat) (k : cls) (q' : nat) : list trans := [(q, k, q'); (q', k, q')].
(** The tags of a reference, and those before a footnote. *)
Definition fsup : list trans := Eval vm_compute in
  (flat_map (fun f => reads f 400 (u "<sup class=""footnote""") 421) fbefore
   ++ [(421, ch 62, 430)]%nat ++ reads 421 422 (u " id=""") 427 ++ run 427 idc 428 ++ [(428, ch 34, 429); (429, ch 62, 430)]%nat
   ++ run 430 digit 431 ++ reads 430 440 (u "<a href=""#") 450 ++ run 450 idc 451 ++ [(451, ch 34, 452); (452, ch 62, 453)]%nat
   ++ run 453 digit 454 ++ reads 454 460 (u "</a>") 465 ++ reads 465 470 (u "</sup>") 103 ++ reads 431 480 (u "</sup>") 105).
Definition fsup_tags : list nat := (seq 400 30 ++ seq 440 13 ++ seq 460 4 ++ seq 470 6 ++ seq 480 6)%nat.
Definition fnote : list trans := Eval vm_compute in
  (reads 500 501 (u "<sup>") 510 ++ run 510 digit 511 ++ reads 511 520 (u "</sup>") 530 ++ [(530, blank, 1)]%nat
   ++ reads 510 540 (u "<a href=""#") 550 ++ run 550 idc 551 ++ [(551, ch 34, 552); (552, ch 62, 553)]%nat
   ++ run 553 digit 554 ++ reads 554 560 (u "</a>") 565 ++ reads 565 570 (u "</sup>") 530).
Definition fnote_tags : list nat := (seq 501 4 ++ seq 520 6 ++ seq 540 13 ++ seq 560 4 ++ seq 570 6)%nat.
Definition fresult_a : auto := Eval vm_compute in mk_auto (ftext ++ fsup) 0%nat fends.
Definition fnote_a : auto := Eval vm_compute in mk_auto (au_trans item_text ++ fnote) 500%nat (au_final item_text).
Definition fpage_a : auto := Eval vm_compute in mk_auto
  (ftext ++ fsup ++ fnote ++ reads 600 601 (u "<p>") 0 ++ flat_map (fun f => reads f 610 (u "</p>") 620) fends
   ++ reads 600 630 (u "<p class=""footnote"" id=""") 660 ++ run 660 idc 661 ++ [(661, ch 34, 662); (662, ch 62, 500)]%nat
   ++ [(620, newline, 621); (621, newline, 600)]%nat) 600%nat [620%nat].

Definition early_rx : list rx := [SPECIAL_NOTEXTILE; SPECIAL_EQ; SPECIAL_CODE; SPECIAL_AT; SPECIAL_PRE; TABLE_RE; RC_PATTERN; LIST_RE; IMAGE_RE; SPECIAL_COMMENT; RESTRICTED_URLREF_RE; UNRESTRICTED_URLREF_RE; QUOTED_QUOTE_RE; SLICE_RE].
Lemma fsource_quiet : forallb (fun r => never (tailed_of fsource_a) (rx_re r)) (early_rx ++ TAG_PATTERNS) = true.
Proof. vm_compute. reflexivity. Qed.
Lemma fsource_piece : forallb (fun r => never fsource_a (rx_re r)) [TEXTILE_TAG_RE; DIVIDER_RE; NOTEDEF_RE] = true.
Proof. vm_compute. reflexivity. Qed.
Lemma fsource_small : forallb (never fsource_a) small_re = true.
Proof. vm_compute. reflexivity. Qed.
Lemma fresult_quiet : never (tailed_of fresult_a) (rx_re NOTEREF_RE) = true.
Proof. vm_compute. reflexivity. Qed.
Lemma fresult_whole : forallb (fun r => never fresult_a (rx_re r)) [DIVIDER_RE; UNWRAPPABLE_RE; WRAPPED_RE] = true.
Proof. vm_compute. reflexivity. Qed.
Lemma fresult_tagged : tagged fresult_a fsup_tags = true.
Proof. vm_compute. reflexivity. Qed.
Lemma fnote_quiet : forallb (fun r => never (tailed_of fnote_a) (rx_re r)) (early_rx ++ [FOOTNOTE_RE; NOTEREF_RE] ++ TAG_PATTERNS) = true.
Proof. vm_compute. reflexivity. Qed.
Lemma fnote_tagged : tagged fnote_a fnote_tags = true.
Proof. vm_compute. reflexivity. Qed.
Lemma fpage_quiet : forallb (fun r => never fpage_a (rx_re r)) [TEXT_NOTELIST_RE; BR_PATTERN; BR_TAG_RE] = true.
Proof. vm_compute. reflexivity. Qed.
Lemma fpage_lead : never fpage_a uid_lead = true.
Proof. vm_compute. reflexivity. Qed.
