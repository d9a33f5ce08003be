(** The lines that start the head, the foot or a body of a table. *)
From Coq Require Import ZArith.
From Verif Require Import Str Unicode Regex RegexParse RegexSnips RegexTheory RegexAuto RegexGroups Lib ModelBase ModelHtml ModelUrl
  ModelAttrs ModelInline ModelParser SpecRegex ProofRegex SpecHtml ProofHtml ProofCharref SpecParse ProofParse Logic ProofWalk ProofState SpecState ProofMemory ProofCache ProofLinks ProofSpan ProofDoc
  SpecPlain ProofPlain SpecNewlines ProofNewlines ProofParas ProofTags ProofSections ProofBlocks ProofStateEx SpecDoc ProofDocument SpecText ProofText ProofPieces ProofWeave SpecLists ProofLists ProofListText ProofListDoc SpecTables ProofTables ProofTableRows SpecRowGroups.
#[local] Arguments u : simpl never.
Definition no_group (acc : table_acc) : Prop := ta_rgrp acc = None.
Definition in_group (acc : table_acc) (g : group) (rows : list str) : Prop := ta_rgrp acc = Some (group_name g, ba_default, rows).
Lemma group_opened T acc g c row s : is_ws c = false ->
  row_group T acc (group_row g (c :: row)) s =
  Ret (mk_ta (ta_caption acc) (ta_colgroup acc) (ta_content acc) (Some (group_name g, ba_default, []))
         (match ta_rgrp acc with Some sec => ta_groups acc ++ [nl ++ tab ++ section_process sec] | None => ta_groups acc end), c :: row) s.
Proof.
  intros Hc. assert (W : in_cls ws_cls c = false) by (unfold in_cls, ws_cls; cbn; rewrite ?orb_false_r; destruct (is_ws c); [discriminate|reflexivity]).
  unfold row_group. change (group_row g (c :: row)) with ([124; group_mark g; 46; 10] ++ c :: row).
  assert (trim_start ([124; group_mark g; 46; 10] ++ c :: row) = [124; group_mark g; 46; 10] ++ c :: row) as -> by reflexivity.
  destruct (g_group g c row W) as (h & Eh & Eh2 & Eh3 & Eh4). rewrite Eh, Eh2, Eh3. cbv zeta.
  assert (section_tag [group_mark g] = ret (group_name g)) as -> by (destruct g; reflexivity).
  unfold bind, ret. rewrite attrs_none. unfold capx. unfold cap_opt in Eh4. rewrite Eh4. reflexivity.
Qed.
Lemma group_first T acc g c row s : no_group acc -> is_ws c = false ->
  row_group T acc (group_row g (c :: row)) s = Ret (mk_ta (ta_caption acc) (ta_colgroup acc) (ta_content acc) (Some (group_name g, ba_default, [])) (ta_groups acc), c :: row) s.
Proof. unfold no_group. intros H Hc. rewrite (group_opened T acc g c row s Hc), H. reflexivity. Qed.
Lemma group_next T acc g0 rows g c row s : in_group acc g0 rows -> is_ws c = false ->
  row_group T acc (group_row g (c :: row)) s = Ret (mk_ta (ta_caption acc) (ta_colgroup acc) (ta_content acc) (Some (group_name g, ba_default, [])) (ta_groups acc ++ [group_element g0 rows]), c :: row) s.
Proof.
  unfold in_group. intros H Hc. rewrite (group_opened T acc g c row s Hc), H, group_tag. reflexivity.
Qed.
