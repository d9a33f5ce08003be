(** Well-formed HTML: text, break tags, and elements of known names that are closed in order,
    with attributes of known names whose values end at their quotes. *)
From Verif Require Import Str ModelBase SpecSigned SpecMixed.

Definition element_names : list str :=
  map u ["p"; "h1"; "h2"; "h3"; "h4"; "h5"; "h6"; "blockquote"; "pre"; "code"; "ol"; "ul"; "li";
         "table"; "caption"; "thead"; "tbody"; "tfoot"; "tr"; "th"; "td"; "dl"; "dt"; "dd"]%string.
Definition attribute_names : list str := map u ["class"; "id"; "lang"; "style"; "start"; "colspan"; "rowspan"]%string.
Definition attribute_text (a : str * str) : str := u " " ++ fst a ++ u "=""" ++ snd a ++ u """".
Definition attribute_ok (a : str * str) : Prop := In (fst a) attribute_names /\ ~ In 34 (snd a) /\ ~ In 60 (snd a) /\ ~ In 62 (snd a).
Inductive formed : str -> Prop :=
| FormedText t : ~ In 60 t -> ~ In 62 t -> formed t
| FormedApp a b : formed a -> formed b -> formed (a ++ b)
| FormedBreak b : b = u "<br>" \/ b = u "<br />" -> formed b
| FormedElement name atts w : In name element_names -> Forall attribute_ok atts -> formed w ->
    formed (u "<" ++ name ++ flat_map attribute_text atts ++ u ">" ++ w ++ u "</" ++ name ++ u ">").

(** Raw blocks show any HTML, except in restricted mode. *)
Definition no_raw (r : bool) (m : mixed) : Prop :=
  match m with Worded (Signed SigRaw _ _) | Worded (Extended SigRaw _ _ _) => r = true | _ => True end.
