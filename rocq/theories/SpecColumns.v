(** The line of a table that describes its columns: how many columns each description is for,
    and their width. *)
From Verif Require Import Str ModelBase.

Record column := mk_column { k_span : option N; k_width : option N }.
Definition span_mark (o : option N) : str := match o with Some n => 92 :: dec n | None => [] end.
Definition width_text (o : option N) : str := match o with Some n => dec n | None => [] end.
Definition further_column (k : column) : str := 124 :: match k_span k with Some _ => span_mark (k_span k) ++ u ". " | None => [] end ++ width_text (k_width k).
Definition columns_source (k : column) (ks : list column) : str := u "|:" ++ span_mark (k_span k) ++ u ". " ++ width_text (k_width k) ++ flat_map further_column ks.

Definition column_atts (k : column) : str :=
  match k_span k with Some n => u " span=""" ++ dec n ++ u """" | None => [] end ++ match k_width k with Some n => u " width=""" ++ dec n ++ u """" | None => [] end.
Definition columns_html (k : column) (ks : list column) : str :=
  u "	<colgroup" ++ column_atts k ++ u ">" ++ [10] ++ flat_map (fun k => u "	<col" ++ column_atts k ++ u " />" ++ [10]) ks ++ u "	</colgroup>".
