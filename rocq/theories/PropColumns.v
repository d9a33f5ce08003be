(** Property C82: the line of a table that describes its columns. *)
From Verif Require Import Str ModelBase ModelParser Samples SpecColumns ProofColumns.

(** ** C82: in every table, at any place, in any mode and any state, a line of column descriptions
    becomes one colgroup with one element for every description, with the span and the width that
    were asked for, however many descriptions there are and whatever the numbers; what stands
    after the line is read as the next row; nothing else changes. *)
Theorem C82_columns : forall T k ks rest s, match rest with [] => True | c :: _ => c = 10 end ->
  row_colgroup T (columns_source k ks ++ rest) s = Ret (columns_html k ks, match rest with [] => None | _ => Some (trim_start rest) end) s.
Proof. exact columns_exact. Qed.
Print Assumptions C82_columns.
Theorem C82_row : forall T L first acc k ks s,
  table_row T L first acc (columns_source k ks) s = Ret (mk_ta (ta_caption acc) (ta_colgroup acc ++ columns_html k ks) (ta_content acc) (ta_rgrp acc) (ta_groups acc)) s.
Proof. exact row_of_columns. Qed.
Print Assumptions C82_row.
Example C82_example :
  html_of T0 (columns_source (mk_column (Some 2) (Some 50)) [mk_column None (Some 30); mk_column (Some 3) None; mk_column None None] ++ u "|
|a|b|") = Some (u "	<table>" ++ columns_html (mk_column (Some 2) (Some 50)) [mk_column None (Some 30); mk_column (Some 3) None; mk_column None None] ++ u "
		<tr>
			<td>a</td>
			<td>b</td>
		</tr>
	</table>").
Proof. vm_compute. reflexivity. Qed.
Example C82_source_example : columns_source (mk_column (Some 2) (Some 50)) [mk_column None (Some 30)] = u "|:\2. 50|30" /\
  columns_html (mk_column (Some 2) (Some 50)) [mk_column None (Some 30)] = u "	<colgroup span=""2"" width=""50"">
	<col width=""30"" />
	</colgroup>".
Proof. split; vm_compute; reflexivity. Qed.
