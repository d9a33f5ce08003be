(** Paragraphs with spans. *)
From Verif Require Import Str Unicode Regex RegexAuto ModelBase SpecPlain SpecText.

(** ** The marks of spans and their tags *)
Definition spans : list (str * str) :=
  [(u "**", u "b"); (u "*", u "strong"); (u "??", u "cite"); (u "-", u "del"); (u "__", u "i");
   (u "_", u "em"); (u "%", u "span"); (u "+", u "ins"); (u "~", u "sub"); (u "^", u "sup")].

(** ** What is marked: words separated by single blanks.
    A word consists of letters and ASCII digits; no three letters in a row that may be capitals;
    no x after a number.
    States: 40 start; 41 after a blank; 42 after a small letter; 43, 44 after one, two other
    letters; 45 after a digit; 48 after a number and a blank. *)
Definition marked_start (q : nat) : list trans := [(q, small, 42%nat); (q, letter, 43%nat); (q, digit, 45%nat)].
Definition marked : auto := mk_auto
  (marked_start 40 ++ marked_start 41
   ++ marked_start 42 ++ [(42, blank, 41)]
   ++ [(43, small, 42); (43, letter, 44); (43, digit, 45); (43, blank, 41)]
   ++ [(44, small, 42); (44, digit, 45); (44, blank, 41)]
   ++ [(45, small_not_x, 42); (45, not_x, 43); (45, digit, 45); (45, blank, 48)]
   ++ [(48, small_not_x, 42); (48, not_x, 43); (48, digit, 45)])%nat
  40%nat [42; 43; 44; 45]%nat.

(** ** The text around the spans: what a paragraph is made of, cut before the first mark and
    after the last mark of each span.
    States: 20 after a span; 21 after a mark of punctuation after a span. *)
Definition after_span : cls := one_of (u ",:;!.").
Definition around : list trans :=
  au_trans paragraph ++ [(20, blank, 1); (20, newline, 1); (20, after_span, 21); (21, blank, 1); (21, newline, 1)]%nat.
Definition before_spans : auto := mk_auto around 0%nat [0; 1; 8]%nat.
Definition between_spans : auto := mk_auto around 20%nat [1; 8]%nat.
Definition after_spans (lite : bool) : auto := mk_auto around 20%nat (20%nat :: (if lite then [] else [21%nat]) ++ au_final paragraph).

(** ** A paragraph: a text, and spans each followed by a text *)
Record marking := mk_marking { k_mark : str; k_tag : str; k_text : str; k_after : str }.
Definition spans_text (a : str) (l : list marking) : str :=
  a ++ flat_map (fun k => k_mark k ++ k_text k ++ k_mark k ++ k_after k) l.
Definition spans_html (br a : str) (l : list marking) : str :=
  element (u "p") (breaks br a ++ flat_map (fun k => element (k_tag k) (k_text k) ++ breaks br (k_after k)) l).
Fixpoint spans_follow (lite : bool) (l : list marking) : Prop :=
  match l with
  | [] => False
  | [k] => In (k_mark k, k_tag k) spans /\ accepts marked (k_text k) /\ accepts (after_spans lite) (k_after k)
  | k :: l' => In (k_mark k, k_tag k) spans /\ accepts marked (k_text k) /\ accepts between_spans (k_after k) /\ spans_follow lite l'
  end.
Definition with_spans (lite : bool) (a : str) (l : list marking) : Prop := accepts before_spans a /\ spans_follow lite l.
