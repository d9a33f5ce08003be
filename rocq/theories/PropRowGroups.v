(** Property C95: the lines that start the head, the foot or a body of a table. *)
From Verif Require Import Str ModelBase ModelAttrs ModelInline ModelParser SpecTables SpecRowGroups ProofRowGroups Samples.

(** ** C95: a row after the line of a group starts that group, whatever the row is; the group before it, if there is one,
    is finished with all its rows.  The row goes on without the line. *)
Theorem C95_first : forall T acc g c row s, ta_rgrp acc = None -> is_ws c = false ->
  row_group T acc (group_row g (c :: row)) s = Ret (mk_ta (ta_caption acc) (ta_colgroup acc) (ta_content acc) (Some (group_name g, ba_default, [])) (ta_groups acc), c :: row) s.
Proof. exact group_first. Qed.
Print Assumptions C95_first.
Theorem C95_next : forall T acc g0 rows g c row s, ta_rgrp acc = Some (group_name g0, ba_default, rows) -> is_ws c = false ->
  row_group T acc (group_row g (c :: row)) s = Ret (mk_ta (ta_caption acc) (ta_colgroup acc) (ta_content acc) (Some (group_name g, ba_default, [])) (ta_groups acc ++ [group_element g0 rows]), c :: row) s.
Proof. exact group_next. Qed.
Print Assumptions C95_next.
Example C95_example : group_row Head (u "|a|b") = u "|^." ++ nl ++ u "|a|b" /\ group_row Foot (u "|a") = u "|~." ++ nl ++ u "|a" /\
  group_element Body [u "x"; u "y"] = nl ++ tab ++ u "<tbody>xy" ++ nl ++ tab ++ u "</tbody>" /\ ta_rgrp (mk_ta [] [] [] None []) = None.
Proof. repeat split. Qed.
Example C95_table : html_of T0 (group_row Head (u "|a|" ++ nl ++ group_row Body (u "|b|"))) =
  Some (u "	<table>" ++ group_element Head [u "
		<tr>
			<td>a</td>
		</tr>"] ++ group_element Body [u "
		<tr>
			<td>b</td>
		</tr>"] ++ u "
	</table>").
Proof. vm_compute. reflexivity. Qed.
