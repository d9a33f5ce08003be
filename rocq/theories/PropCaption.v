(** Property C94: captions of tables. *)
From Verif Require Import Str ModelBase ModelInline ModelParser SpecCaption ProofCaption Samples.

(** ** C94: a first row marked as a caption gives the line up to its end as the caption, without white space around it;
    what follows is a row, unless it is blank. *)
Theorem C94_caption : forall T c rest s, ~ In 10 c -> match rest with [] => True | d :: _ => d = 10 end ->
  row_caption T true (caption_source c rest) s = Ret (Some (caption_html c), row_after rest) s.
Proof. exact caption_exact. Qed.
Print Assumptions C94_caption.
(** A row with nothing but a caption replaces the caption of the table and changes nothing else. *)
Theorem C94_row : forall T L acc c s, ~ In 10 c ->
  table_row T L true acc (caption_source c []) s = Ret (mk_ta (caption_html c) (ta_colgroup acc) (ta_content acc) (ta_rgrp acc) (ta_groups acc)) s.
Proof. exact caption_row. Qed.
Print Assumptions C94_row.
Example C94_example :
  caption_source (u "  Prices *now* ") (nl ++ u "|a") = u "|=.   Prices *now* " ++ nl ++ u "|a" /\
  caption_html (u "  Prices *now* ") = nl ++ tab ++ u "<caption>Prices *now*</caption>" ++ nl /\ row_after (nl ++ u "|a") = Some (u "|a") /\ row_after (nl ++ u " ") = None.
Proof. repeat split; vm_compute; reflexivity. Qed.
Example C94_table : html_of T0 (caption_source (u "Prices ") (nl ++ u "|a|")) =
  Some (u "	<table>" ++ caption_html (u "Prices ") ++ u "
		<tr>
			<td>a</td>
		</tr>
	</table>").
Proof. vm_compute. reflexivity. Qed.
