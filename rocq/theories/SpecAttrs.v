(** What attribute lists, and the attributes a specification can give, look like. *)
From Verif Require Import Str Unicode.

(** Dictionary order of names. *)
Inductive lex_lt : str -> str -> Prop :=
| LexNil c s : lex_lt [] (c :: s)
| LexHead c d s t : c < d -> lex_lt (c :: s) (d :: t)
| LexTail c s t : lex_lt s t -> lex_lt (c :: s) (c :: t).

(** Strictly increasing names: every name is below all later ones. *)
Fixpoint increasing (l : list (str * str)) : Prop :=
  match l with
  | [] => True
  | (k, _) :: l' => Forall (fun a => lex_lt k (fst a)) l' /\ increasing l'
  end.

(** A CSS identifier of the accepted form: an optional hyphen, a letter or an
    underscore, then letters, digits, underscores and hyphens.  (Case folding also
    lets the long s U+017F and the Kelvin sign U+212A pass for letters.) *)
Definition css_letter (c : N) : Prop := 65 <= c <= 90 \/ 97 <= c <= 122 \/ c = 95 \/ c = 383 \/ c = 8490.
Definition css_rest (c : N) : Prop := css_letter c \/ 48 <= c <= 57 \/ c = 45.
Definition css_name (s : str) : Prop :=
  exists hyphen c rest, s = hyphen ++ c :: rest /\ (hyphen = [] \/ hyphen = [45]) /\
    css_letter c /\ Forall css_rest rest.

(** Characters of class lists, ids. *)
Definition ascii_alnum (c : N) : Prop := 48 <= c <= 57 \/ 65 <= c <= 90 \/ 97 <= c <= 122.
Definition class_char (c : N) : Prop := ascii_alnum c \/ In c (u "- _./[]").
Definition id_char (c : N) : Prop := ascii_alnum c \/ In c (u "-_.:").
(** Decimal digits in the sense of Unicode (general category Nd). *)
Definition decimal_text (s : str) : Prop := s <> [] /\ Forall (fun c => rmem tab_Nd c = true) s.

(** The parser's own style declarations. *)
Inductive own_style : str -> Prop :=
| OwnVertical v : In v (map u ["top"; "middle"; "bottom"]%string) -> own_style (u "vertical-align:" ++ v)
| OwnLeft n : own_style (u "padding-left:" ++ dec n ++ u "em")
| OwnRight n : own_style (u "padding-right:" ++ dec n ++ u "em")
| OwnText v : In v (map u ["left"; "center"; "right"; "justify"]%string) -> own_style (u "text-align:" ++ v).

(** Sequences of operations on an attribute list. *)
Inductive attr_op := OpSet (k v : str) | OpClass (name : str).
