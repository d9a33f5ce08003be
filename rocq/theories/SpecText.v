(** Texts with marks that are switched off. *)
From Coq Require Import ZArith.
From Verif Require Import Str Unicode Regex RegexAuto ModelBase SpecPlain.

Definition one_of (cs : str) : cls := mk_cls false (map (fun c => CRange c c) cs).

(** ** Marks of lists, headings, raw blocks and tables *)
(** The word [w], read from state [q] to state [q'] through states from [n] on. *)
Fixpoint reads (q n : nat) (w : str) (q' : nat) : list trans :=
  match w with
  | [] => []
  | [c] => [(q, one_of [c], q')]
  | c :: w' => (q, one_of [c], n) :: reads n (S n) w' q'
  end.
(** A paragraph whose lines may start with one or two asterisks or any number of number signs, and a blank; or that
    starts with the signature of a heading, a preformatted block, a raw block or a table; or with a
    row of cells.
    States: 30 after a blank, 31, 36, 37 after marks of a list; 32 after the signature; 33 after a bar, 34 in a cell. *)
Definition lite_text : auto := mk_auto
  (map (fun tr => if in_cls (snd (fst tr)) 32 && Nat.eqb (snd tr) 1 then (fst tr, 30%nat) else tr) (au_trans paragraph)
   ++ word_start 30
   ++ [(0, one_of (u "*"), 36); (1, one_of (u "*"), 36); (36, one_of (u "*"), 37); (36, blank, 30); (37, blank, 30)]
   ++ [(0, one_of (u "#"), 31); (1, one_of (u "#"), 31); (31, one_of (u "#"), 31); (31, blank, 30)]
   ++ [(0, one_of (u "h"), 40); (40, one_of (u "123456"), 41); (41, dot, 32); (32, blank, 30)]
   ++ reads 0 50 (u "pre") 41 ++ reads 0 60 (u "notextile") 41 ++ reads 0 70 (u "table") 41
   ++ [(0, one_of (u "|"), 33); (33, small, 34); (34, small, 34); (34, one_of (u "|"), 35); (35, small, 34); (35, newline, 1)])%nat
  0%nat (35%nat :: au_final paragraph).

(** ** Pictures *)
(** A paragraph in which words may follow an exclamation mark and contain slashes, or :// ,
    and in which a colon and a word may follow an exclamation mark. *)
Definition picture_text : auto := mk_auto
  (au_trans paragraph
   ++ [(0, one_of (u "!"), 31); (1, one_of (u "!"), 31); (31, small, 2); (31, letter, 3); (31, digit, 5)]
   ++ flat_map (fun q => [(q, one_of (u "/"), 6); (q, one_of (u ":"), 32); (q, one_of (u "!"), 34)]) [2; 3; 4; 5]
   ++ [(32, one_of (u "/"), 33); (33, one_of (u "/"), 6); (34, one_of (u ":"), 6)])%nat
  0%nat (34%nat :: au_final paragraph).

(** The same world, but for what image sizes are found with. *)
Definition other_images (W : world) (g : str -> bool) (r : str -> nat -> nat -> option (list N)) (i : list N -> option (Z * Z)) : world :=
  mk_world (w_parse W) (w_join W) g r i.
(** The same settings, but for those of images. *)
Definition image_settings (sizes : bool) (align : option bool) (T : textile) : textile :=
  mk_textile (t_uid T) (t_link_prefix T) (t_restricted T) (t_raw_block T) align (t_block_tags T) (t_lite T) (t_noimage T) sizes
    (t_max_span_depth T) (t_html T) (t_rel T) (t_dyn T) (t_sanitize T).
