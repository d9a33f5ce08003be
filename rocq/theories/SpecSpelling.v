(** How break tags are spelled. *)
From Verif Require Import Str SpecParse.

(** [<br>], in any case, with white space and a slash at the end. *)
Definition break_spelling (tag : str) : Prop :=
  exists b r ws slash, tag = 60 :: b :: r :: ws ++ slash ++ [62] /\ (b = 98 \/ b = 66) /\ (r = 114 \/ r = 82) /\
  Forall white_space ws /\ (slash = [] \/ slash = [47]).
(** Every break tag is spelled this way. *)
Definition breaks_spelled (br text : str) : Prop := forall a tag b, text = a ++ tag ++ b -> break_spelling tag -> tag = br.
