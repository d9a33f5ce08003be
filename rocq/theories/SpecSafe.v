(** HTML made of given tags and of characters that start no tag. *)
From Verif Require Import Str SpecPlain.

Inductive made_of (tags : list str) : str -> Prop :=
| MadeNil : made_of tags []
| MadeChar c t : c <> 60 -> made_of tags t -> made_of tags (c :: t)
| MadeTag g t : In g tags -> made_of tags t -> made_of tags (g ++ t).
(** Tags without attributes. *)
Definition own_tags : list str :=
  map u ["<p>"; "</p>"; "<pre>"; "</pre>"; "<code>"; "</code>"; "<br>"; "<br />";
         "<h1>"; "<h2>"; "<h3>"; "<h4>"; "<h5>"; "<h6>"; "</h1>"; "</h2>"; "</h3>"; "</h4>"; "</h5>"; "</h6>"]%string.
