(** Captions of tables. *)
From Coq Require Import ZArith.
From Verif Require Import Str Unicode Regex RegexParse RegexSnips RegexTheory RegexAuto RegexGroups Lib ModelBase ModelHtml ModelUrl
  ModelAttrs ModelInline ModelParser SpecRegex ProofRegex SpecHtml ProofHtml ProofCharref SpecParse ProofParse Logic ProofWalk ProofState SpecState ProofMemory ProofCache ProofLinks ProofSpan ProofDoc
  SpecPlain ProofPlain SpecNewlines ProofNewlines ProofParas ProofTags ProofSections ProofBlocks ProofStateEx SpecDoc ProofDocument SpecText ProofText ProofPieces ProofWeave SpecLists ProofLists ProofListText ProofListDoc SpecTables ProofTables ProofTableRows ProofDoc SpecCaption.
#[local] Arguments u : simpl never.
Lemma caption_hit c y : ~ In 10 c -> match y with [] => True | d :: _ => d = 10 end ->
  exists h, captures (rx_re CAPTION_RE) (caption_source c y) = Some h /\ cap_opt 1 h = Some [] /\ cap_opt 2 h = Some c /\ cap_opt 3 h = Some y.
Proof.
  intros Hc Hy. destruct p_shape as (z & Es & Sz). assert (Hn : forallb (in_cls not_nl) c = true).
  { apply forallb_forall. intros x Hx. assert (x <> 10) as H by (intros ->; exact (Hc Hx)). change (in_cls not_nl x) with (negb ((10 <=? x) && (x <=? 10) || false)). destruct (N.leb_spec 10 x), (N.leb_spec x 10); cbn; try reflexivity. lia. }
  change (caption_source c y) with (124 :: 61 :: 46 :: 32 :: c ++ y).
  assert (exists b, match_at (rx_re CAPTION_RE) [] (124 :: 61 :: 46 :: 32 :: c ++ y) = Some (mk_mst b [] [(3%nat, (y, [])); (2%nat, (c ++ y, y)); (1%nat, (46 :: 32 :: c ++ y, 46 :: 32 :: c ++ y))])) as (b & E).
  { eexists. unfold match_at. rewrite Es, m_seq, m_assert. cbn [assert_holds is_empty]. rewrite m_seq, m_cls. change (in_cls bar 124) with true. cbv iota. rewrite m_seq, m_cls, in_one, N.eqb_refl. rewrite m_seq, m_group, (m_skip z) by exact Sz. cbn [m_before m_after m_caps].
    rewrite m_seq, m_cls, in_one, N.eqb_refl, m_seq, m_cls, in_one, N.eqb_refl, m_seq, m_group. apply m_star_greedy; [exact Hn|destruct y; [exact I|subst; reflexivity]|]. cbn [m_before m_after m_caps]. rewrite m_group.
    rewrite <- (app_nil_r y) at 1. apply (m_star_greedy any_cls _ _ y _ [] _); [apply all_any|exact I|]. cbn [m_before m_after m_caps]. reflexivity. }
  apply captures_first in E. eexists. split; [exact E|]. unfold cap_opt, mk_hit_of, cap_text. cbn [h_caps m_caps find_cap Nat.eqb option_map].
  split; [f_equal; apply (cap_str_app [])|]. split; [f_equal; apply cap_str_app|]. f_equal. rewrite <- (app_nil_r y) at 1. apply cap_str_app.
Qed.
Lemma caption_exact T c rest s : ~ In 10 c -> match rest with [] => True | d :: _ => d = 10 end ->
  row_caption T true (caption_source c rest) s = Ret (Some (caption_html c), row_after rest) s.
Proof.
  intros Hc Hr. destruct (caption_hit c rest Hc Hr) as (h & E & E1 & E2 & E3). unfold row_caption. rewrite E. unfold capx. unfold cap_opt in E1, E2, E3. rewrite E1, E2, E3. cbn [of_opt]. rewrite !bind_ret.
  unfold process_caption. unfold bind at 1, bind at 1. rewrite attrs_none. unfold ret at 1. rewrite bind_ret. unfold ret.
  assert (nl ++ tab ++ generate_tag (u "caption") (Some (trim c)) (ba_html_attrs ba_default) ++ nl = caption_html c) as ->.
  { unfold caption_html, generate_tag. change (ba_html_attrs ba_default) with (@nil (str * str)). generalize (trim c) as X. intros X.
    assert (is_empty (u "caption") = false) as -> by reflexivity. assert (forallb is_alphanumeric (u "caption") = true) as -> by (vm_compute; reflexivity). cbn [negb].
    assert (join_html_attributes (u "<" ++ u "caption") [] = u "<caption") as -> by (vm_compute; reflexivity). rewrite <- !app_assoc. reflexivity. }
  unfold row_after. destruct (trim_start rest); reflexivity.
Qed.
Lemma caption_row T L acc c s : ~ In 10 c ->
  table_row T L true acc (caption_source c []) s = Ret (mk_ta (caption_html c) (ta_colgroup acc) (ta_content acc) (ta_rgrp acc) (ta_groups acc)) s.
Proof.
  intros Hc. unfold table_row. assert (trim_start (caption_source c []) = caption_source c []) as -> by reflexivity.
  unfold bind at 1. rewrite (caption_exact T c [] s Hc I). reflexivity.
Qed.
