(** What the replacement of glyphs may leave. *)
From Verif Require Import Str Unicode Regex ModelBase SpecPlain.

(** A text whose only straight quotes are those of the tags put in for acronyms and for words in
    capitals. *)
Inductive clean : str -> Prop :=
| CleanNil : clean []
| CleanChar c x : c <> 34 -> c <> 39 -> clean x -> clean (c :: x)
| CleanTitle name w x : name = u "abbr" \/ name = u "acronym" -> (forall c, In c w -> c <> 34 /\ c <> 39 /\ c <> 60) -> clean x ->
    clean (u "<" ++ name ++ u " title=""" ++ w ++ u """>" ++ x)
| CleanCaps x : clean x -> clean (u "<span class=""caps"">" ++ x).

(** The template for words in capitals, as every call that sets the prefix of tokens leaves it. *)
Definition caps_set (T : textile) : Prop := t_dyn T = u "$1<span class=""caps"">" ++ t_uid T ++ u ":glyph:$2</span>$3".

(** A tag, as the text is cut before the replacement. *)
Definition is_tag (t : str) : Prop := exists c w, t = 60 :: c :: w ++ [62] /\ ~ In 62 w.
