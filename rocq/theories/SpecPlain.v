(** Plain text: what the parser should leave alone. *)
From Verif Require Import Str Unicode Regex RegexAuto SpecNewlines.

(** ** Characters *)
(** Not in a word: ASCII other than letters, U+007B..U+00BF, general punctuation, other blanks
    and numbers. *)
Definition no_letter : list citem :=
  [CRange 0 64; CRange 91 96; CRange 123 191; CRange 8192 8303; CProp false PSpace; CProp false PN].
Definition letter : cls := mk_cls true no_letter.
Definition not_x : cls := mk_cls true (CRange 88 88 :: CRange 120 120 :: no_letter).
Definition small : cls := mk_cls true (CProp false PLu :: no_letter).
Definition small_not_x : cls := mk_cls true (CRange 88 88 :: CRange 120 120 :: CProp false PLu :: no_letter).
Definition digit : cls := mk_cls false (map (fun c => CRange c c) (u "0123456789")).
Definition blank : cls := mk_cls false [CRange 32 32].
Definition newline : cls := mk_cls false [CRange 10 10].
Definition hyphen : cls := mk_cls false [CRange 45 45].
Definition dot : cls := mk_cls false [CRange 46 46].
(** , : ; ! ? *)
Definition mark : cls := mk_cls false (map (fun c => CRange c c) (u ",:;!?")).
(** An ASCII capital. *)
Definition capital : cls := mk_cls false (map (fun c => CRange c c) (u "ABCDEFGHIJKLMNOPQRSTUVWXYZ")).

(** ** A paragraph: lines of words separated by single blanks.
    A word consists of letters, ASCII digits, hyphens and dots between them; no three letters
    in a row that may be capitals; no x after a number.  A word may be followed by one of
    [.,:;!?].  A paragraph whose first word does not start with an ASCII capital or a digit
    has another word, and no dot and blank after the first.
    States: 0 start of the paragraph; 1 start of a line or after a blank; 2 in a word, after a
    small letter; 3, 4 after one, two other letters; 5 after a digit; 6 after a hyphen; 7 after
    a mark; 8 after a number and a blank; 9 after a dot; 12..16 like 2..6 in the
    first word; 17 after a mark after the first word; 18 after a dot in it. *)
Definition word_end (q : nat) : list trans :=
  [(q, newline, 1%nat); (q, mark, 7%nat); (q, dot, 9%nat); (q, hyphen, 6%nat)].
Definition first_end (q : nat) : list trans :=
  [(q, newline, 1%nat); (q, mark, 17%nat); (q, dot, 18%nat); (q, hyphen, 16%nat)].
Definition word_start (q : nat) : list trans :=
  [(q, small, 2%nat); (q, letter, 3%nat); (q, digit, 5%nat)].
Definition paragraph : auto := mk_auto
  ([(0, capital, 3); (0, digit, 5); (0, small, 12); (0, letter, 13)]
   ++ word_start 1
   ++ word_start 2 ++ word_end 2 ++ [(2, blank, 1)]
   ++ [(3, small, 2); (3, letter, 4); (3, digit, 5)] ++ word_end 3 ++ [(3, blank, 1)]
   ++ [(4, small, 2); (4, digit, 5)] ++ word_end 4 ++ [(4, blank, 1)]
   ++ [(5, small_not_x, 2); (5, not_x, 3); (5, digit, 5)] ++ word_end 5 ++ [(5, blank, 8)]
   ++ word_start 6
   ++ [(7, blank, 1); (7, newline, 1)]
   ++ [(8, small_not_x, 2); (8, not_x, 3); (8, digit, 5)]
   ++ word_start 9 ++ [(9, blank, 1); (9, newline, 1)]
   ++ [(12, small, 12); (12, letter, 13); (12, digit, 15)] ++ first_end 12 ++ [(12, blank, 1)]
   ++ [(13, small, 12); (13, letter, 14); (13, digit, 15)] ++ first_end 13 ++ [(13, blank, 1)]
   ++ [(14, small, 12); (14, digit, 15)] ++ first_end 14 ++ [(14, blank, 1)]
   ++ [(15, small_not_x, 12); (15, not_x, 13); (15, digit, 15)] ++ first_end 15 ++ [(15, blank, 8)]
   ++ [(16, small, 12); (16, letter, 13); (16, digit, 15)]
   ++ [(17, blank, 1); (17, newline, 1)]
   ++ word_start 18 ++ [(18, newline, 1)])%nat
  0%nat [2; 3; 4; 5; 7; 9]%nat.

(** ** Documents of paragraphs, headings and preformatted text *)
Inductive plain_block := Para (t : str) | Heading (n : N) (t : str) | Code (t : str) | Pre (t : str) | Raw (t : str).
(** Any characters; no line consists of blanks. *)
Definition code_text (t : str) : Prop := ~ In 13 t /\ forall l, In l (lines t) -> blank_line l = false.
(** No br tag. *)
Definition no_br (t : str) : Prop :=
  forall a x y b, t = a ++ 60 :: x :: y :: b -> (x = 98 \/ x = 66) -> (y = 114 \/ y = 82) -> False.
Definition plain (b : plain_block) : Prop :=
  match b with
  | Para t => accepts paragraph t
  | Heading n t => 1 <= n <= 6 /\ accepts paragraph t
  | Code t | Pre t => code_text t
  | Raw t => code_text t /\ no_br t
  end.
Definition heading_tag (n : N) : str := [104; 48 + n].
Definition source (b : plain_block) : str :=
  match b with
  | Para t => t
  | Heading n t => heading_tag n ++ u ". " ++ t
  | Code t => u "bc" ++ u ". " ++ t
  | Pre t => u "pre" ++ u ". " ++ t
  | Raw t => u "notextile" ++ u ". " ++ t
  end.
(** Line breaks are shown. *)
Definition breaks (br t : str) : str := flat_map (fun c => if c =? 10 then br else [c]) t.
Definition element (tag content : str) : str := u "<" ++ tag ++ u ">" ++ content ++ u "</" ++ tag ++ u ">".
(** Characters as HTML; with quotes, or without. *)
Definition entity (quotes : bool) (c : N) : str :=
  match c with
  | 38 => u "&amp;" | 60 => u "&lt;" | 62 => u "&gt;"
  | 34 => if quotes then u "&quot;" else [c]
  | 39 => if quotes then u "&#39;" else [c]
  | _ => [c]
  end.
Definition entities (quotes : bool) (t : str) : str := flat_map (entity quotes) t.
Definition block_html (br : str) (b : plain_block) : str :=
  match b with
  | Para t => element (u "p") (breaks br t)
  | Heading n t => element (heading_tag n) (breaks br t)
  | Code t => element (u "pre") (element (u "code") (entities true t))
  | Pre t => element (u "pre") (entities true t)
  | Raw t => t
  end.
(** In restricted mode the document is escaped first. *)
Definition restricted_block (b : plain_block) : plain_block :=
  match b with
  | Code t => Code (entities false t)
  | Pre t => Pre (entities false t)
  | Raw t => Raw (entities false t)
  | _ => b
  end.
(** Blocks with an empty line between them. *)
Fixpoint sections (l : list str) : str :=
  match l with [] => [] | [b] => b | b :: rest => b ++ [10; 10] ++ sections rest end.
(** In lite mode only these are allowed. *)
Definition lite_block (b : plain_block) : bool := match b with Para _ | Code _ => true | _ => false end.
(** The characters of the content, where they are free. *)
Definition content (b : plain_block) : str := match b with Code t | Pre t | Raw t => t | _ => [] end.
(** Placeholder prefixes: of hexadecimal digits, for example. *)
Definition id_chars : str := u "0123456789abcdefghijklmnopqrstuvwyz".
Definition simple_uid (uid : str) : Prop :=
  exists id, uid = u "textileRef:" ++ id ++ u ":" /\ forall c, In c id -> In c id_chars.
