(** Documents of definition lists. *)
From Coq Require Import ZArith.
From Verif Require Import Str Unicode Regex RegexParse RegexSnips RegexTheory RegexAuto RegexGroups Lib ModelBase ModelHtml ModelUrl
  ModelAttrs ModelInline ModelParser SpecRegex ProofRegex SpecHtml ProofHtml ProofCharref SpecParse ProofParse Logic ProofWalk ProofState SpecState ProofMemory ProofCache ProofLinks ProofSpan ProofDoc
  SpecPlain ProofPlain SpecNewlines ProofNewlines ProofParas ProofTags ProofSections ProofBlocks ProofStateEx SpecDoc ProofDocument SpecText ProofText ProofPieces ProofWeave SpecLists ProofLists ProofListText ProofListDoc SpecDefs.
#[local] Arguments u : simpl never.

(** ** The shapes of source and result *)
Definition dsource_a : auto := Eval vm_compute in mk_auto
  (au_trans item_text ++ flat_map (fun q => (q, newline, 40%nat) :: reads q 50 (u " := ") 1) (au_final item_text) ++ reads 40 45 (u "- ") 1) 40%nat (au_final item_text).
Definition dl_a : list trans := Eval vm_compute in
  (reads 160 300 (u "<dl>") 310 ++ [(310, newline, 311)]%nat ++ reads 311 320 (u "	<dt>") 1
   ++ flat_map (fun q => reads q 330 (u "</dt>") 340 ++ reads q 350 (u "</dd>") 341) (au_final item_text)
   ++ [(340, newline, 342); (341, newline, 343)]%nat ++ reads 342 360 (u "	<dt>") 1 ++ reads 342 370 (u "	<dd>") 1 ++ reads 343 380 (u "	<dt>") 1
   ++ reads 342 390 (u "</dl>") 57 ++ reads 343 400 (u "</dl>") 57).
Definition dresult_a : auto := Eval vm_compute in mk_auto (au_trans item_text ++ dl_a) 160%nat [57%nat].
Definition dpage_a : auto := Eval vm_compute in mk_auto (au_trans page_a ++ dl_a) 160%nat [57%nat].
Lemma dsource_inert : forallb (fun r => never dsource_a (rx_re r)) [SPECIAL_NOTEXTILE; SPECIAL_EQ; SPECIAL_CODE; SPECIAL_AT; SPECIAL_PRE; SPECIAL_COMMENT; RESTRICTED_URLREF_RE; UNRESTRICTED_URLREF_RE; QUOTED_QUOTE_RE; SLICE_RE; IMAGE_RE; TEXTILE_TAG_RE; DIVIDER_RE; NOTEDEF_RE] = true.
Proof. vm_compute. reflexivity. Qed.
Lemma dsource_tailed : never (tailed_of dsource_a) (rx_re TABLE_RE) = true.
Proof. vm_compute. reflexivity. Qed.
Lemma dsource_small : forallb (never dsource_a) small_re = true.
Proof. vm_compute. reflexivity. Qed.
Lemma dresult_inert : forallb (fun r => never dresult_a (rx_re r)) ([LIST_RE; FOOTNOTE_RE; NOTEREF_RE; BR_TAG_RE; PBR_TAG_RE] ++ TAG_PATTERNS) = true.
Proof. vm_compute. reflexivity. Qed.
Definition din_tag : list nat := Eval vm_compute in (seq 300 4 ++ seq 321 9 ++ seq 330 9 ++ seq 350 9 ++ seq 361 9 ++ seq 371 9 ++ seq 381 9 ++ seq 390 20).
Lemma dresult_tagged : tagged dresult_a din_tag = true.
Proof. vm_compute. reflexivity. Qed.
Lemma dpage_inert : forallb (fun r => never dpage_a (rx_re r)) [TEXT_NOTELIST_RE; BR_PATTERN] = true.
Proof. vm_compute. reflexivity. Qed.
Lemma dpage_lead : never dpage_a uid_lead = true.
Proof. vm_compute. reflexivity. Qed.

(** ** Recognition *)
Definition dash : cls := one 45.
Lemma rc_shape : rx_re RC_PATTERN = RSeq (RAssert SOL) (RSeq (RGroup 1 (RSeq (RSeq (RCls dash) (RStar true (RCls dash))) (RSeq cls_re (RSeq (RCls gap_cls)
  (RSeq (RStar true (RCls any_cls)) (RSeq (RCls (one 58)) (RSeq (RCls (one 61)) (RStar true (RCls any_cls))))))))) (RSeq (RAssert EOL) (RNLook (RCls (mk_cls true [CRange 45 45]))))).
Proof. reflexivity. Qed.
Lemma rsplit_shape : rx_re RC_SPLITTER = RSeq (RCls (one 10)) (RLook (RCls dash)).
Proof. reflexivity. Qed.
Lemma rattr_shape : rx_re RC_ATTR_CONTENT_RE = RSeq (RAssert SOL) (RSeq (RSeq (RCls dash) (RStar true (RCls dash))) (RSeq (RGroup 1 cls_re) (RSeq (RAlt (RCls (one 46)) REps) (RSeq (RCls (one 32)) (RSeq (RGroup 2 (RStar true (RCls any_cls))) (RAssert EOL)))))).
Proof. reflexivity. Qed.
Definition mark_end : re := RAlt (RGroup 3 (RAlt (RSeq (RCls (one 61)) (RCls (one 58))) (RSeq (RCls (one 58)) (RCls (one 61))))) REps.
Definition xm_end : re := RSeq (RStar true (RCls space_cls)) (RSeq mark_end (RSeq (RStar true (RCls space_cls)) (RAssert EOT))).
Lemma rxm_shape : rx_re RC_XM_RE = RSeq (RAssert SOT) (RSeq (RGroup 1 (RStar false (RCls any_cls))) (RSeq (RStar true (RCls space_cls)) (RSeq (RCls (one 58)) (RSeq (RCls (one 61)) (RSeq (RGroup 2 (RStar false (RCls any_cls))) xm_end))))).
Proof. reflexivity. Qed.
Lemma any_run w : forall before rest cs, Mat (RStar true (RCls any_cls)) (mk_mst before (w ++ rest) cs) (mk_mst (rev w ++ before) rest cs).
Proof.
  induction w as [|x w IH]; intros before rest cs; [constructor|]. apply MStarS with (s1 := mk_mst (x :: before) (w ++ rest) cs).
  - apply (MCls any_cls (mk_mst before (x :: w ++ rest) cs) x (w ++ rest)); reflexivity.
  - rewrite <- rev_app_cons. apply IH.
Qed.
Lemma rc_whole a b : exists s, match_at (rx_re RC_PATTERN) [] (45 :: 32 :: a ++ 58 :: 61 :: b) = Some s /\ m_after s = [].
Proof.
  assert (N : match_at (rx_re RC_PATTERN) [] (45 :: 32 :: a ++ 58 :: 61 :: b) <> None).
  { unfold match_at. rewrite rc_shape, m_seq, m_assert. cbn [assert_holds]. rewrite m_seq, m_group, m_seq, m_seq, m_cls. change (in_cls dash 45) with true. cbv iota.
    destruct (m (RStar true (RCls dash)) _ _) eqn:E; [discriminate|]. exfalso. revert E. set (v := a ++ 58 :: 61 :: b).
    match goal with |- m _ _ ?k = None -> False => set (K := k) end.
    assert (exists y, K (mk_mst [45] (32 :: v) []) = Some y) as (y & Ey).
    { unfold K. rewrite m_seq, skip_cls, m_seq, m_cls. change (in_cls gap_cls 32) with true. cbv iota.
      match goal with |- exists y, m ?r ?s0 ?k = Some y => pose proof (m_complete r ltac:(vm_compute; reflexivity) s0 (mk_mst (rev b ++ 61 :: 58 :: rev a ++ [32; 45]) [] []) k) as C; destruct (m r s0 k) as [y|]; [exists y; reflexivity|] end.
      exfalso. apply C; [| |reflexivity].
      - apply MSeq with (s1 := mk_mst (rev a ++ [32; 45]) (58 :: 61 :: b) []); [apply any_run|].
        apply MSeq with (s1 := mk_mst (58 :: rev a ++ [32; 45]) (61 :: b) []); [apply (MCls (one 58) (mk_mst _ _ _) 58); reflexivity|].
        apply MSeq with (s1 := mk_mst (61 :: 58 :: rev a ++ [32; 45]) b []); [apply (MCls (one 61) (mk_mst _ _ _) 61); reflexivity|].
        rewrite <- (app_nil_r b) at 1. apply any_run.
      - cbn [m_before m_after m_caps]. rewrite m_seq, m_assert. cbn [assert_holds]. rewrite m_nlook, m_cls_nil. discriminate. }
    assert (m (RStar true (RCls dash)) (mk_mst [45] ([] ++ 32 :: v) []) K = Some y) as E; [|cbn [app] in E; rewrite E; discriminate].
    apply m_star_greedy; [reflexivity|reflexivity|exact Ey]. }
  destruct (match_at (rx_re RC_PATTERN) [] _) as [s|] eqn:E; [|congruence]. exists s. split; [reflexivity|]. apply match_at_sound in E. rewrite rc_shape in E.
  apply mat_seq in E as (s1 & _ & E). apply mat_seq in E as (s2 & _ & E). apply mat_seq in E as (s3 & E1 & E2). apply mat_assert in E1 as [-> E1]. inversion E2 as [| | | | | | | | | |a0 s0 F| |]; subst.
  destruct s as [sb sa sc]. cbn [m_after m_before assert_holds] in *. destruct sa as [|x sa]; [reflexivity|]. exfalso. rewrite m_cls in F. destruct (N.eqb_spec x 10) as [->|Hx]; [discriminate F|discriminate E1].
Qed.

(** ** Terms and definitions *)
Definition ends_solid (t : str) : Prop := (exists r x, t = r ++ [x] /\ is_ws x = false) /\ ~ In 61 t.
Definition solid (t : str) : Prop := (exists x r, t = x :: r /\ is_ws x = false) /\ ends_solid t /\ ~ In 10 t.
Lemma one_small : forallb (never item_text) [end_space; start_cls space_cls; RCls (ch 10); RCls (ch 61)] = true.
Proof. vm_compute. reflexivity. Qed.
Lemma item_never : forallb (fun r => never (tailed_of item_text) (rx_re r)) (stage_rx false false) = true /\ forallb (fun r => never item_text (rx_re r)) GLYPH_RX = true /\ forallb (never item_text) small_re = true.
Proof. split; [|split]; vm_compute; reflexivity. Qed.
Lemma one_solid t : accepts item_text t -> solid t.
Proof.
  intros H. pose proof (item_text_ne t H) as Hn. assert (S0 : forall r, In r [end_space; start_cls space_cls; RCls (ch 10); RCls (ch 61)] -> no_match r t) by (intros r Hr; eapply never_in; [apply one_small|exact H|exact Hr]).
  repeat split.
  - destruct t as [|c t]; [congruence|]. exists c, t. split; [reflexivity|]. rewrite <- space_ws. eapply no_start_cls. apply S0. cbn [In]. tauto.
  - destruct (exists_last Hn) as (r & x & ->). exists r, x. split; [reflexivity|]. destruct (is_ws x) eqn:Ed; [|reflexivity]. exfalso.
    assert (S2 : no_match end_space (r ++ [x])) by (apply S0; cbn [In]; tauto). specialize (S2 r [x] eq_refl). unfold match_at, end_space in S2. rewrite m_seq, m_cls, space_ws, Ed in S2. rewrite m_assert in S2. discriminate.
  - apply no_match_ch, S0. cbn [In]. tauto.
  - apply no_match_ch, S0. cbn [In]. tauto.
Qed.
Lemma ends_tail a x b : ends_solid (a ++ x :: b) -> ends_solid (x :: b).
Proof.
  intros ((r & y & E & Hy) & H). split; [|intros F; apply H, in_or_app; right; exact F]. destruct (exists_last (l := x :: b)) as (r2 & y2 & E2); [discriminate|].
  rewrite E2 in *. rewrite app_assoc in E. apply app_inj_tail in E as [_ <-]. exists r2, y2. auto.
Qed.
Lemma last_not_space w t : forallb (in_cls space_cls) (w ++ t) = true -> ends_solid (w ++ t) -> False.
Proof.
  intros H ((r & x & E & Hx) & _). rewrite E in H. rewrite forallb_app in H. apply andb_prop in H as [_ H]. cbn [forallb] in H. rewrite space_ws, Hx in H. discriminate.
Qed.
Lemma xm_end_short r before cs k : ends_solid r -> m xm_end (mk_mst before r cs) k = None.
Proof.
  intros H. destruct (m xm_end _ k) as [y|] eqn:E; [|reflexivity]. exfalso. apply m_sound in E as (s' & E & _). unfold xm_end in E.
  apply mat_seq in E as (s1 & E1 & E). apply mat_seq in E as (s2 & E2 & E). apply mat_seq in E as (s3 & E3 & E4).
  apply mat_star_cls in E1 as (w & [M1 _] & W1 & _). apply mat_star_cls in E3 as (w2 & [M3 _] & W2 & _). apply mat_assert in E4 as [-> E4]. cbn [m_after] in M1.
  assert (m_after s3 = []) as E0 by (destruct (m_after s3); [reflexivity|cbn in E4; discriminate]). rewrite E0, app_nil_r in M3.
  assert (m_after s1 = m_after s2 \/ In 61 (m_after s1)) as [F|F].
  { unfold mark_end in E2. inversion E2 as [| | |a b s0 s4 G|a b s0 s4 G| | | | | | | |]; subst.
    - right. apply mat_group in G as (s5 & G & _). inversion G as [| | |a b s0 s6 G1|a b s0 s6 G1| | | | | | | |]; subst; apply mat_seq in G1 as (s7 & G1 & G2).
      + apply mat_cls in G1 as (x & rest & Ex & Hx & _). rewrite in_one in Hx. apply N.eqb_eq in Hx. subst x. rewrite Ex. left. reflexivity.
      + apply mat_cls in G1 as (x & rest & Ex & _ & ->). apply mat_cls in G2 as (y2 & rest2 & Ey & Hy & _). rewrite in_one in Hy. apply N.eqb_eq in Hy. subst y2. cbn in Ey. rewrite Ex, Ey. right. left. reflexivity.
    - inversion G; subst. left. reflexivity. }
  - rewrite F, M3 in M1. apply (last_not_space w w2); [rewrite forallb_app, W1, W2; reflexivity|]. rewrite <- M1. exact H.
  - destruct H as [_ H]. apply H. rewrite M1. apply in_or_app. right. exact F.
Qed.
Lemma xm_short r rest before cs k : ends_solid r ->
  m (RSeq (RStar true (RCls space_cls)) (RSeq (RCls (one 58)) (RSeq (RCls (one 61)) (RSeq (RGroup 2 (RStar false (RCls any_cls))) xm_end)))) (mk_mst before (r ++ 32 :: rest) cs) k = None.
Proof.
  intros H. destruct (m _ _ k) as [y|] eqn:E; [|reflexivity]. exfalso. apply m_sound in E as (s' & E & _).
  apply mat_seq in E as (s1 & E1 & E). apply mat_seq in E as (s2 & E2 & E). apply mat_seq in E as (s3 & E3 & _).
  apply mat_star_cls in E1 as (w & [M1 _] & W1 & _). apply mat_cls in E2 as (x & r2 & Ex & Hx & ->). apply mat_cls in E3 as (x3 & r3 & Ey & Hy & _). cbn [m_after] in M1. cbn in Ey.
  rewrite in_one in Hx, Hy. apply N.eqb_eq in Hx, Hy. subst x x3. rewrite Ex, Ey in M1.
  assert (forall p q v, p ++ q = v ++ 58 :: 61 :: r3 -> q = 32 :: rest -> forallb (in_cls space_cls) v = true -> (p <> [] -> ends_solid p) -> p <> [] -> False) as G.
  { clear. induction p as [|c p IH]; intros q v E Eq Wv Hp Hn; [congruence|]. destruct v as [|z v].
    - cbn [app] in E. inversion E; subst c. destruct (Hp ltac:(discriminate)) as [_ F]. destruct p as [|c2 p]; [cbn [app] in *; subst q; discriminate|]. cbn [app] in *. inversion E; subst. apply F. cbn. tauto.
    - cbn [app] in E. inversion E; subst c. cbn [forallb] in Wv. apply andb_prop in Wv as [W0 Wv]. destruct p as [|c2 p].
      + destruct (Hp ltac:(discriminate)) as ((r & x & E2 & Hx) & _). destruct r as [|? r]; [|destruct r; discriminate]. inversion E2; subst. rewrite space_ws, Hx in W0. discriminate.
      + apply (IH q v); auto; [|discriminate]. intros _. apply (ends_tail [z]). apply Hp. discriminate. }
  apply (G r (32 :: rest) w); auto. intros ->. destruct H as ((r0 & x & E & _) & _). destruct r0; discriminate.
Qed.
Lemma xm_captures t d : ends_solid t -> ends_solid d ->
  captures (rx_re RC_XM_RE) (t ++ 32 :: 58 :: 61 :: 32 :: d) = Some (mk_hit (t ++ 32 :: 58 :: 61 :: 32 :: d) [(2%nat, (32 :: d, [])); (1%nat, (t ++ 32 :: 58 :: 61 :: 32 :: d, 32 :: 58 :: 61 :: 32 :: d))]).
Proof.
  intros Ht Hd. set (all := t ++ 32 :: 58 :: 61 :: 32 :: d).
  assert (exists b, match_at (rx_re RC_XM_RE) [] all = Some (mk_mst b [] [(2%nat, (32 :: d, [])); (1%nat, (all, 32 :: 58 :: 61 :: 32 :: d))])) as (b & M).
  { eexists. unfold match_at. rewrite rxm_shape, m_seq, m_assert. cbn [assert_holds]. rewrite m_seq, m_group. unfold all at 2. apply m_star_lazy; [apply all_any| |].
    - intros w1 x w2 E. cbn [m_before m_after m_caps]. rewrite app_comm_cons. apply xm_short. apply (ends_tail w1). rewrite <- E. exact Ht.
    - cbn [m_before m_after m_caps]. rewrite m_seq. change (32 :: 58 :: 61 :: 32 :: d) with ([32] ++ 58 :: 61 :: 32 :: d) at 1. apply m_star_greedy; [reflexivity|reflexivity|].
      rewrite m_seq, m_cls, in_one, N.eqb_refl, m_seq, m_cls, in_one, N.eqb_refl, m_seq, m_group. rewrite <- (app_nil_r (32 :: d)) at 1. apply m_star_lazy; [apply all_any| |].
      + intros w1 x w2 E. cbn [m_before m_after m_caps]. replace (x :: w2 ++ []) with (x :: w2) by (rewrite app_nil_r; reflexivity). apply xm_end_short. destruct w1 as [|c w1].
        * cbn [app] in E. inversion E; subst. destruct Hd as ((r & y & -> & Hy) & Hd). split; [exists (32 :: r), y; auto|]. intros [F|F]; [discriminate|exact (Hd F)].
        * cbn [app] in E. inversion E as [[E1 E2]]. apply (ends_tail w1). rewrite <- E2. exact Hd.
      + cbn [m_before m_after m_caps]. unfold xm_end. rewrite m_seq. apply (m_star_greedy space_cls _ _ []); [reflexivity|exact I|]. rewrite m_seq. unfold mark_end. rewrite m_alt_r.
        2:{ rewrite m_group. rewrite m_alt_r; rewrite m_seq, m_cls_nil; reflexivity. }
        rewrite m_eps, m_seq. apply (m_star_greedy space_cls _ _ []); [reflexivity|exact I|]. rewrite m_assert. cbn [assert_holds]. reflexivity. }
  rewrite (captures_first _ _ _ M). unfold mk_hit_of. cbn [m_after m_caps]. rewrite <- (app_nil_r all) at 1. rewrite cap_str_app. reflexivity.
Qed.
Lemma xm_none t : ~ In 61 t -> captures (rx_re RC_XM_RE) t = None.
Proof.
  intros H. destruct (captures _ t) as [h|] eqn:E; [|reflexivity]. exfalso. apply captures_some in E as (w & v & s & -> & E & _). apply match_at_sound in E. rewrite rxm_shape in E.
  apply mat_seq in E as (s0 & E0 & E). apply mat_assert in E0 as [-> _]. apply mat_seq in E as (s1 & E1 & E). apply mat_seq in E as (s2 & E2 & E). apply mat_seq in E as (s3 & E3 & E). apply mat_seq in E as (s4 & E4 & _).
  apply Mat_moved in E1 as (w1 & M1 & _). apply Mat_moved in E2 as (w2 & M2 & _). apply Mat_moved in E3 as (w3 & M3 & _). apply mat_cls in E4 as (x & r & Ex & Hx & _). rewrite in_one in Hx. apply N.eqb_eq in Hx. subst x.
  cbn [m_after] in M1. apply H. apply in_or_app. right. rewrite M1, M2, M3, Ex. apply in_or_app. right. apply in_or_app. right. apply in_or_app. right. left. reflexivity.
Qed.
Lemma rattr_captures c : captures (rx_re RC_ATTR_CONTENT_RE) (45 :: 32 :: c) = Some (mk_hit (45 :: 32 :: c) [(2%nat, (c, [])); (1%nat, (32 :: c, 32 :: c))]).
Proof.
  assert (exists b, match_at (rx_re RC_ATTR_CONTENT_RE) [] (45 :: 32 :: c) = Some (mk_mst b [] [(2%nat, (c, [])); (1%nat, (32 :: c, 32 :: c))])) as (b & M).
  { eexists. unfold match_at. rewrite rattr_shape, m_seq, m_assert. cbn [assert_holds]. rewrite m_seq, m_seq, m_cls. change (in_cls dash 45) with true. cbv iota. apply (m_star_greedy dash _ _ []); [reflexivity|reflexivity|].
    rewrite m_seq, m_group, skip_cls, m_seq. cbn [m_before m_after m_caps rev app]. rewrite m_alt_r.
    2:{ rewrite m_cls, in_one. reflexivity. }
    rewrite m_eps, m_seq, m_cls, in_one, N.eqb_refl, m_seq, m_group. rewrite <- (app_nil_r c) at 1. apply m_star_greedy; [apply all_any|exact I|]. cbn [m_before m_after m_caps]. rewrite m_assert. cbn [assert_holds]. reflexivity. }
  rewrite (captures_first _ _ _ M). unfold mk_hit_of. cbn [m_after m_caps]. rewrite <- (app_nil_r (45 :: 32 :: c)) at 1. rewrite cap_str_app. reflexivity.
Qed.

(** ** Lines *)
Definition dash_line (x : str) : Prop := ~ In 10 x /\ exists r, x = 45 :: r.
Lemma rsplit_miss before c rest : c <> 10 -> match_at (rx_re RC_SPLITTER) before (c :: rest) = None.
Proof. intros H. unfold match_at. rewrite rsplit_shape, m_seq, m_cls, in_one. apply N.eqb_neq in H. rewrite H. reflexivity. Qed.
Lemma rsplit_word w before rest last : ~ In 10 w -> w <> [] ->
  scan (rx_re RC_SPLITTER) before (w ++ rest) O last = map Lit w ++ scan (rx_re RC_SPLITTER) (rev w ++ before) rest O false.
Proof.
  intros H Hn. apply scan_pass; [exact Hn|]. intros a c b E. apply rsplit_miss. intros ->. apply H. rewrite E. apply in_or_app. right. left. reflexivity.
Qed.
Lemma rsplit_lines l : forall it before last acc, Forall dash_line (it :: l) ->
  split_go 1 (scan (rx_re RC_SPLITTER) before (join [10] (it :: l) ++ tail2) O last) acc =
  match with_tail (it :: l) with [] => None | x :: xs => Some ((rev acc ++ x) :: xs) end.
Proof.
  induction l as [|i l IH]; intros it before last acc H; inversion H as [|? ? Hi Hl]; subst; destruct Hi as (Hi & r & Er).
  - cbn [join with_tail]. rewrite rsplit_word by (auto; rewrite Er; discriminate). rewrite split_go_lits. unfold tail2. rewrite scan_cons.
    assert (match_at (rx_re RC_SPLITTER) (rev it ++ before) [10; 10] = None) as -> by reflexivity. rewrite scan_cons.
    assert (match_at (rx_re RC_SPLITTER) (10 :: rev it ++ before) [10] = None) as -> by reflexivity. rewrite scan_nil.
    assert (match_at (rx_re RC_SPLITTER) (10 :: 10 :: rev it ++ before) [] = None) as -> by reflexivity.
    cbn [split_go]. cbn [rev]. rewrite rev_app_distr, rev_involutive. rewrite <- !app_assoc. reflexivity.
  - change (join [10] (it :: i :: l)) with (it ++ [10] ++ join [10] (i :: l)). rewrite <- app_assoc. rewrite rsplit_word by (auto; rewrite Er; discriminate). rewrite split_go_lits.
    pose proof (Forall_inv Hl) as (_ & r2 & E2).
    assert (exists z, join [10] (i :: l) ++ tail2 = 45 :: z) as (z & Ez) by (rewrite E2; destruct l; eexists; reflexivity).
    rewrite <- app_assoc. cbn [app]. rewrite scan_cons.
    assert (match_at (rx_re RC_SPLITTER) (rev it ++ before) (10 :: join [10] (i :: l) ++ tail2) =
      Some (mk_mst (10 :: rev it ++ before) (join [10] (i :: l) ++ tail2) [])) as ->.
    { rewrite Ez. unfold match_at. rewrite rsplit_shape, m_seq, m_cls, in_one, N.eqb_refl, m_look, m_cls. reflexivity. }
    assert (h_text (mk_hit_of (10 :: join [10] (i :: l) ++ tail2) (mk_mst (10 :: rev it ++ before) (join [10] (i :: l) ++ tail2) [])) = [10]) as ->.
    { unfold mk_hit_of. cbn [h_text m_after]. apply (cap_str_app [10]). }
    specialize (IH i (rev [10] ++ rev it ++ before) true [] Hl).
    set (J := join [10] (i :: l) ++ tail2) in *. cbn [List.length m_after m_before skipn]. cbn [split_go]. cbn [seq map forallb Nat.sub app].
    rewrite IH. cbn [with_tail]. destruct l; cbn [with_tail]; rewrite rev_app_distr, rev_involutive; reflexivity.
Qed.
Definition content (e : entry) : str := fst e ++ match snd e with Some d => 32 :: 58 :: 61 :: 32 :: d | None => [] end.
Lemma entry_line e : entry_source e = 45 :: 32 :: content e.
Proof. destruct e as [t [d|]]; reflexivity. Qed.
Lemma entry_solid e : proper_entry e -> solid (fst e) /\ match snd e with Some d => solid d | None => True end.
Proof. destruct e as [t [d|]]; intros [H1 H2]; cbn [fst snd] in *; split; auto; apply one_solid; auto. Qed.
Lemma content_edges e : proper_entry e -> (exists x r, content e = x :: r /\ is_ws x = false) /\ (exists r x, content e = r ++ [x] /\ is_ws x = false) /\ ~ In 10 (content e).
Proof.
  intros H. apply entry_solid in H. destruct e as [t o]. unfold content. cbn [fst snd] in *. destruct H as (((x & r & Et & Hx) & ((r2 & y & Ey & Hy) & _) & Ht) & Ho). split; [|split].
  - rewrite Et. exists x, (r ++ match o with Some d => 32 :: 58 :: 61 :: 32 :: d | None => [] end). auto.
  - destruct o as [d|]; [|exists r2, y; rewrite app_nil_r; auto]. destruct Ho as (_ & ((r3 & z & -> & Hz) & _) & _). exists (t ++ 32 :: 58 :: 61 :: 32 :: r3), z. split; [|exact Hz]. rewrite <- app_assoc. reflexivity.
  - intros F. apply in_app_or in F as [F|F]; [exact (Ht F)|]. destruct o as [d|]; [|destruct F]. destruct Ho as (_ & _ & Ho). cbn [In] in F. intuition discriminate.
Qed.
Lemma entry_dash e : proper_entry e -> dash_line (entry_source e).
Proof. intros H. rewrite entry_line. split; [|eauto]. intros [F|[F|F]]; [discriminate|discriminate|]. apply (content_edges e H). exact F. Qed.
Lemma trim_edges w tail : (exists x r, w = x :: r /\ is_ws x = false) -> (exists r x, w = r ++ [x] /\ is_ws x = false) -> (tail = [] \/ tail = tail2) -> trim (w ++ tail) = w.
Proof.
  intros (x & r & Ex & Hx) (r2 & y & Ey & Hy) Ht. unfold trim, trim_by. assert (trim_start_by is_ws (w ++ tail) = w ++ tail) as ->.
  { apply trim_start_by_id. rewrite Ex. cbn [app]. exact Hx. }
  assert (trim_end_by is_ws w = w) as Ew. { apply trim_end_by_id. intros a c E. rewrite Ey in E. apply app_inj_tail in E as [_ <-]. exact Hy. }
  destruct Ht as [->| ->]; [rewrite app_nil_r; exact Ew|]. unfold trim_end_by, tail2. rewrite rev_app_distr. cbn [rev app trim_start_by]. change (is_ws 10) with true. cbv iota. exact Ew.
Qed.
Lemma trim_spaces w : (exists x r, w = x :: r /\ is_ws x = false) -> (exists r x, w = r ++ [x] /\ is_ws x = false) -> trim_matches 32 (32 :: w) = w.
Proof.
  intros (x & r & Ex & Hx) (r2 & y & Ey & Hy). assert (K : forall c, is_ws c = false -> (32 =? c) = false) by (intros c Hc; destruct (N.eqb_spec 32 c) as [<-|]; [discriminate|reflexivity]).
  unfold trim_matches, trim_by. cbn [trim_start_by]. rewrite N.eqb_refl. rewrite trim_start_by_id by (rewrite Ex; apply K, Hx). apply trim_end_by_id. intros a c E. rewrite Ey in E. apply app_inj_tail in E as [_ <-]. apply K, Hy.
Qed.
Lemma replace_char_none w x : ~ In 10 w -> replace_char w 10 x = w.
Proof.
  induction w as [|c w IH]; intros H; [reflexivity|]. unfold replace_char in *. cbn [flat_map]. rewrite IH by (intros F; apply H; right; exact F). destruct (N.eqb_spec c 10) as [->|]; [exfalso; apply H; left; reflexivity|reflexivity].
Qed.

Section Defs.
Variables (W : world) (T : textile).
Hypothesis uid_simple : simple_uid (t_uid T).
Hypothesis not_lite : t_lite T = false.
Variable s0 : pstate.
Let uid_ok : uid_plain (t_uid T) = true := uid_simple_plain _ uid_simple.
Definition started (out : list str) : list str := match out with [] => [u "<dl>"] | _ => out end.
Lemma item_quiet t : accepts item_text t -> quiet T t.
Proof.
  intros H. destruct item_never as (F1 & F2 & F3). assert (H1 : accepts (tailed_of item_text) t /\ accepts (tailed_of item_text) (t ++ nl ++ nl)).
  { split.
    - unfold accepts. rewrite <- (app_nil_r t). apply (tail_ok item_text _ _ H); [intros x Hx; cbn [tailed_of au_trans]; apply in_or_app; auto|]. intros f Hf. constructor. right. exact Hf.
    - apply (tail_ok item_text _ _ H); [intros x Hx; cbn [tailed_of au_trans]; apply in_or_app; auto|]. intros f Hf. eapply SufCons with (l := newline) (q' := 200%nat); [|reflexivity|].
      + cbn [tailed_of au_trans]. apply in_or_app. right. apply in_or_app. left. apply in_map_iff. exists f. auto.
      + eapply SufCons with (l := newline) (q' := 201%nat); [|reflexivity|constructor; left; reflexivity]. cbn [tailed_of au_trans]. apply in_or_app. right. apply in_or_app. right. left. reflexivity. }
  destruct H1 as [H1 H2]. assert (B : forall r, In r small_re -> no_match r t) by (intros r Hr; eapply never_in; [exact F3|exact H|exact Hr]). constructor.
  - intros r Hr. rewrite not_lite in *. assert (In r (stage_rx false false)) as Hr2.
    { destruct (t_noimage T); [|exact Hr]. unfold stage_rx in Hr |- *. apply in_app_or in Hr as [Hr|Hr]; apply in_or_app; [left; exact Hr|right]. apply in_app_or in Hr as [[]|Hr]. apply in_or_app. right. exact Hr. }
    rewrite forallb_forall in F1. specialize (F1 r Hr2). split; [exact (never_ok _ _ _ H1 F1)|intros _; exact (never_ok _ _ _ H2 F1)].
  - intros r Hr. rewrite forallb_forall in F2. exact (never_ok _ _ _ H (F2 r Hr)).
  - split; apply no_match_ch, B; cbn [In small_re]; tauto.
  - unfold needle. apply contains_more, lead_absent; auto. apply B. cbn [In small_re]; tauto.
  - apply no_end_newline, B; cbn [In small_re]; tauto.
Qed.
Lemma graf_one fuel n t : (0 < fuel)%nat -> accepts item_text t -> leaves T (graf_n W T fuel (S n) t) t.
Proof. intros Hf H. apply (graf_quiet W T uid_ok); [exact Hf|]. apply item_quiet, H. Qed.
Lemma graf_empty fuel n : (0 < fuel)%nat -> leaves T (graf_n W T fuel (S n) []) [].
Proof.
  intros Hf. apply (graf_quiet W T uid_ok); [exact Hf|]. constructor.
  - intros r Hr. rewrite not_lite in *.
    assert (forallb (fun r => never (mk_auto [] 0%nat [0%nat]) (rx_re r) && never (mk_auto [(0, newline, 1); (1, newline, 2)]%nat 0%nat [2%nat]) (rx_re r)) (stage_rx false (t_noimage T)) = true) as E by (destruct (t_noimage T); vm_compute; reflexivity).
    rewrite forallb_forall in E. apply E in Hr. apply andb_prop in Hr as [E1 E2]. split; [|intros _]; [refine (never_ok _ _ _ _ E1); apply SufNil; left; reflexivity|].
    refine (never_ok _ _ _ _ E2). eapply SufCons with (l := newline) (q' := 1%nat); [left; reflexivity|reflexivity|]. eapply SufCons with (l := newline) (q' := 2%nat); [right; left; reflexivity|reflexivity|constructor; left; reflexivity].
  - intros r Hr. assert (forallb (fun r => never (mk_auto [] 0%nat [0%nat]) (rx_re r)) GLYPH_RX = true) as E by (vm_compute; reflexivity).
    rewrite forallb_forall in E. refine (never_ok _ _ _ _ (E r Hr)); apply SufNil; left; reflexivity.
  - cbn [In]. tauto.
  - unfold needle. pose proof uid_simple as (id & E & _). rewrite E. reflexivity.
  - reflexivity.
Qed.
Lemma rc_line_entry fuel n out e tail : (0 < fuel)%nat -> proper_entry e -> (tail = [] \/ tail = tail2) ->
  leaves T (rc_line T (graf_n W T fuel (S n)) out (entry_source e ++ tail)) (started out ++ entry_html e).
Proof.
  intros Hf He Ht. destruct (content_edges e He) as (C1 & C2 & C3). pose proof (entry_solid e He) as (St & Sd). rewrite entry_line. cbn [app]. unfold rc_line. rewrite rattr_captures.
  assert (capx 1 (mk_hit (45 :: 32 :: content e ++ tail) [(2%nat, (content e ++ tail, [])); (1%nat, (32 :: content e ++ tail, 32 :: content e ++ tail))]) = ret []) as ->.
  { unfold capx. cbn [h_caps]. unfold cap_text. cbn [find_cap Nat.eqb option_map of_opt]. unfold cap_str. cbn [fst snd]. rewrite Nat.sub_diag. reflexivity. }
  assert (capx 2 (mk_hit (45 :: 32 :: content e ++ tail) [(2%nat, (content e ++ tail, [])); (1%nat, (32 :: content e ++ tail, 32 :: content e ++ tail))]) = ret (content e ++ tail)) as ->.
  { unfold capx. cbn [h_caps]. unfold cap_text. cbn [find_cap Nat.eqb option_map of_opt]. rewrite <- (app_nil_r (content e ++ tail)) at 1. rewrite cap_str_app. reflexivity. }
  eapply leaves_bind; [apply leaves_ret|]. eapply leaves_bind; [apply leaves_ret|]. cbv beta zeta. rewrite trim_edges by auto.
  eapply leaves_bind with (x := ba_default). { apply leaves_pure. intros s. apply attrs_none. }
  change (ba_to_string ba_default) with (@nil N).
  eapply leaves_bind with (x := (fst e, match snd e with Some d => d | None => [] end)).
  { destruct e as [t [d|]]; unfold content; cbn [fst snd] in *.
    - rewrite xm_captures; [|apply St|apply Sd]. set (all := t ++ 32 :: 58 :: 61 :: 32 :: d).
      assert (capx 1 (mk_hit all [(2%nat, (32 :: d, [])); (1%nat, (all, 32 :: 58 :: 61 :: 32 :: d))]) = ret t) as ->.
      { unfold capx. cbn [h_caps]. unfold cap_text. cbn [find_cap Nat.eqb option_map of_opt]. unfold all. rewrite cap_str_app. reflexivity. }
      assert (capx 2 (mk_hit all [(2%nat, (32 :: d, [])); (1%nat, (all, 32 :: 58 :: 61 :: 32 :: d))]) = ret (32 :: d)) as ->.
      { unfold capx. cbn [h_caps]. unfold cap_text. cbn [find_cap Nat.eqb option_map of_opt]. rewrite <- (app_nil_r (32 :: d)) at 1. rewrite cap_str_app. reflexivity. }
      eapply leaves_bind; [apply leaves_ret|]. eapply leaves_bind; [apply leaves_ret|]. cbv beta. destruct St as (S1 & (S2 & _) & _). destruct Sd as (D1 & (D2 & _) & _).
      rewrite trim_spaces by auto. rewrite <- (app_nil_r t) at 1. rewrite trim_edges by auto. apply leaves_ret.
    - rewrite app_nil_r. rewrite xm_none; [apply leaves_ret|]. apply St. }
  cbv beta iota zeta.
  assert (is_empty (fst e) = false) as -> by (destruct St as ((x & r & -> & _) & _); reflexivity).
  assert ((match out with [] => [if is_empty (match snd e with Some d => d | None => [] end) then u "<dl" ++ [] ++ u ">" else u "<dl>"] | _ => out end) = started out) as Eo.
  { unfold started. destruct out; [|reflexivity]. destruct (is_empty _); reflexivity. }
  rewrite Eo. clear Eo. rewrite replace_char_none by apply St. eapply leaves_bind with (x := fst e). { apply graf_one; [exact Hf|apply He]. }
  destruct e as [t [d|]]; cbn [fst snd] in *.
  - destruct Sd as (D1 & (D2 & _) & D3). assert (trim d = d) as -> by (rewrite <- (app_nil_r d) at 1; apply trim_edges; auto). rewrite replace_char_none by exact D3.
    assert ((match d with c :: _ => if c =? 10 then u "<p>" ++ d ++ u "</p>" else d | [] => d end) = d) as ->.
    { destruct d as [|c d]; [reflexivity|]. destruct (N.eqb_spec c 10) as [->|]; [exfalso; apply D3; left; reflexivity|reflexivity]. }
    eapply leaves_bind with (x := d). { apply graf_one; [exact Hf|apply He]. }
    destruct d as [|c d]; [destruct D1 as (? & ? & ? & _); discriminate|]. apply leaves_ret.
  - eapply leaves_bind with (x := []). { apply graf_empty. exact Hf. } apply leaves_ret.
Qed.
Lemma started_grow out e : started (started out ++ entry_html e) = started out ++ entry_html e.
Proof. destruct out; reflexivity. Qed.
Lemma fold_entries fuel n l : (0 < fuel)%nat -> Forall proper_entry l -> forall out, l <> [] ->
  leaves T (foldM (rc_line T (graf_n W T fuel (S n))) out (with_tail (map entry_source l))) (started out ++ flat_map entry_html l).
Proof.
  intros Hf H. induction l as [|e l IH]; intros out Hn; [congruence|]. inversion H as [|? ? He Hl]; subst. destruct l as [|e2 l].
  - cbn [map with_tail foldM flat_map]. rewrite app_nil_r. eapply leaves_bind; [apply rc_line_entry; auto|apply leaves_ret].
  - change (with_tail (map entry_source (e :: e2 :: l))) with (entry_source e :: with_tail (map entry_source (e2 :: l))). cbn [foldM].
    eapply leaves_bind with (x := started out ++ entry_html e). { pose proof (rc_line_entry fuel n out e [] Hf He (or_introl eq_refl)) as L. rewrite app_nil_r in L. exact L. }
    specialize (IH Hl (started out ++ entry_html e) ltac:(discriminate)). rewrite started_grow in IH. change (flat_map entry_html (e :: e2 :: l)) with (entry_html e ++ flat_map entry_html (e2 :: l)). rewrite app_assoc. exact IH.
Qed.
Lemma defs_ne l : proper_defs l -> l <> [].
Proof. intros (_ & t & d & H) ->. destruct H. Qed.
Lemma defs_head l : l <> [] -> exists r, defs_source l = 45 :: 32 :: r.
Proof. destruct l as [|e l]; intros H; [congruence|]. unfold defs_source. cbn [map]. rewrite entry_line. destruct (map entry_source l); eexists; reflexivity. Qed.
Lemma join_mid (x y : str) a b : exists p q, join [10] (a ++ (x ++ y) :: b) = p ++ x ++ y ++ q.
Proof.
  induction a as [|z a IH].
  - destruct b as [|w b]; [exists [], []; cbn; rewrite app_nil_r; reflexivity|]. exists [], ([10] ++ join [10] (w :: b)). change (join [10] ([] ++ (x ++ y) :: w :: b)) with ((x ++ y) ++ [10] ++ join [10] (w :: b)). rewrite <- !app_assoc. reflexivity.
  - destruct IH as (p & q & E). exists (z ++ [10] ++ p), q. assert (join [10] ((z :: a) ++ (x ++ y) :: b) = z ++ [10] ++ join [10] (a ++ (x ++ y) :: b)) as -> by (destruct a; reflexivity).
    rewrite E. rewrite <- !app_assoc. reflexivity.
Qed.
Lemma defs_split l : proper_defs l -> exists a b, defs_source l = 45 :: 32 :: a ++ 58 :: 61 :: b.
Proof.
  intros (_ & t & d & H). destruct (defs_head l) as (r & Er); [intros ->; destruct H|]. apply in_split in H as (l1 & l2 & ->). unfold defs_source in *. rewrite map_app in *. cbn [map] in *.
  change (entry_source (t, Some d)) with (u "- " ++ t ++ u " := " ++ d) in *.
  destruct (join_mid (u "- " ++ t ++ [32]) (58 :: 61 :: 32 :: d) (map entry_source l1) (map entry_source l2)) as (p & q & E).
  assert (u "- " ++ t ++ u " := " ++ d = (u "- " ++ t ++ [32]) ++ 58 :: 61 :: 32 :: d) as E2 by (rewrite <- !app_assoc; reflexivity). unfold str in *. rewrite E2 in *. clear E2.
  assert (45 :: 32 :: r = p ++ (u "- " ++ t ++ [32]) ++ 58 :: 61 :: 32 :: d ++ q) as E4 by (etransitivity; [symmetry; exact Er|exact E]).
  assert (exists p', p ++ (u "- " ++ t ++ [32]) = 45 :: 32 :: p') as (p' & E3).
  { destruct p as [|x p]; [eexists; reflexivity|]. destruct p as [|y p]; change (u "- ") with [45; 32] in E4; cbn [app] in E4; [discriminate|]. inversion E4; subst. eexists; reflexivity. }
  exists p', (32 :: d ++ q). etransitivity; [exact E|]. rewrite app_assoc. unfold str in *. rewrite E3. reflexivity.
Qed.
Lemma rc_stage fuel n l : (0 < fuel)%nat -> proper_defs l ->
  leaves T (redcloth_list T (graf_n W T fuel (S n)) (defs_source l ++ nl ++ nl)) (defs_html l).
Proof.
  intros Hf Hp. pose proof (defs_ne l Hp) as Hn. destruct Hp as [He Hd]. destruct (defs_split l (conj He Hd)) as (a & b & E).
  assert (Ex : defs_source l ++ nl ++ nl = 45 :: 32 :: a ++ 58 :: 61 :: (b ++ nl ++ nl)) by (rewrite E; cbn [app]; rewrite <- app_assoc; reflexivity).
  destruct (rc_whole a (b ++ nl ++ nl)) as (ms & M1 & M2). rewrite <- Ex in M1.
  assert (Es : segs (rx_re RC_PATTERN) (defs_source l ++ nl ++ nl) = [Hit (mk_hit_of (defs_source l ++ nl ++ nl) ms)]) by (rewrite Ex in *; apply segs_whole; auto).
  assert (Eh : h_text (mk_hit_of (defs_source l ++ nl ++ nl) ms) = defs_source l ++ nl ++ nl).
  { unfold mk_hit_of. cbn [h_text]. rewrite M2. rewrite <- (app_nil_r (defs_source l ++ nl ++ nl)) at 1. apply cap_str_app. }
  set (h := mk_hit_of (defs_source l ++ nl ++ nl) ms) in *.
  assert (Esp : split_rx RC_SPLITTER (h_text h) = Some (with_tail (map entry_source l))).
  { rewrite Eh. unfold split_rx, segs. change (rx_len RC_SPLITTER) with 1%nat. unfold defs_source. change (nl ++ nl) with tail2. destruct l as [|e l]; [congruence|]. cbn [map].
    rewrite rsplit_lines. { destruct (with_tail (entry_source e :: map entry_source l)) as [|y ys] eqn:Ew; [destruct l; discriminate|reflexivity]. }
    rewrite <- map_cons. apply Forall_map. eapply Forall_impl; [|exact He]. apply entry_dash. }
  assert (L : leaves T (f_rc_list T (graf_n W T fuel (S n)) h) (defs_html l)).
  { unfold f_rc_list. eapply leaves_bind with (x := with_tail (map entry_source l)). { unfold splitM. rewrite Esp. apply leaves_ret. }
    eapply leaves_bind; [apply fold_entries; auto|]. cbn [started app]. apply leaves_ret. }
  intros s C1 C2. destruct (L s C1 C2) as (c & Hc & EL). exists c. split; [exact Hc|]. unfold redcloth_list, replace_allM. rewrite Es. cbn [mapM replace_segM]. unfold bind, ret. rewrite EL. cbn [List.concat]. rewrite app_nil_r. reflexivity.
Qed.

(** ** The shapes are those of the automata *)
Lemma item_dsource : incl (au_trans item_text) (au_trans dsource_a).
Proof. intros x H. change (au_trans dsource_a) with (au_trans item_text ++ skipn (List.length (au_trans item_text)) (au_trans dsource_a)). apply in_or_app. left. exact H. Qed.
Lemma item_dresult : incl (au_trans item_text) (au_trans dresult_a).
Proof. intros x H. change (au_trans dresult_a) with (au_trans item_text ++ skipn (List.length (au_trans item_text)) (au_trans dresult_a)). apply in_or_app. left. exact H. Qed.
Lemma dl_dpage : incl (au_trans dresult_a) (au_trans dpage_a).
Proof.
  intros x H. change (au_trans dresult_a) with (au_trans item_text ++ dl_a) in H. change (au_trans dpage_a) with (au_trans page_a ++ dl_a). apply in_app_or in H as [H|H]; apply in_or_app; [left|right; exact H].
  apply outer_page, inner_outer, item_inner, H.
Qed.
Lemma page_dpage : incl (au_trans page_a) (au_trans dpage_a).
Proof. intros x H. change (au_trans dpage_a) with (au_trans page_a ++ dl_a). apply in_or_app. left. exact H. Qed.
Lemma text_then A t w q rest : incl (au_trans item_text) (au_trans A) -> accepts item_text t -> forallb (fun f => mem q (walk A [f] w)) (au_final item_text) = true -> Suf A q rest -> Suf A 1 (t ++ w ++ rest).
Proof.
  intros Hi H Hf Hr. apply (tail_ok item_text 1 t H A Hi). intros f F. rewrite forallb_forall in Hf. eapply walk_to; [apply Hf; exact F|exact Hr].
Qed.
Lemma text_last A t : incl (au_trans item_text) (au_trans A) -> incl (au_final item_text) (au_final A) -> accepts item_text t -> Suf A 1 t.
Proof. intros Hi Hf H. rewrite <- (app_nil_r t). apply (tail_ok item_text 1 t H A Hi). intros f F. constructor. apply Hf, F. Qed.
Lemma defs_source_ok l : l <> [] -> Forall proper_entry l -> accepts dsource_a (defs_source l).
Proof.
  unfold accepts. change (au_start dsource_a) with 40%nat. induction l as [|[t o] l IH]; intros Hn H; [congruence|]. inversion H as [|? ? [Ht Ho] Hl]; subst. cbn [fst snd] in *.
  assert (Hlast : l = [] \/ exists r, defs_source ((t, o) :: l) = entry_source (t, o) ++ [10] ++ r /\ Suf dsource_a 40 r).
  { destruct l as [|e l]; [left; reflexivity|right]. exists (defs_source (e :: l)). split; [reflexivity|]. apply IH; [discriminate|exact Hl]. }
  assert (Hend : forall t, accepts item_text t -> Suf dsource_a 1 t) by (intros y Hy; apply text_last; [apply item_dsource|intros f F; exact F|exact Hy]).
  assert (Hmid : forall t r, accepts item_text t -> Suf dsource_a 40 r -> Suf dsource_a 1 (t ++ [10] ++ r)) by (intros y r Hy Hr; apply (text_then _ y [10] 40); [apply item_dsource|exact Hy|vm_compute; reflexivity|exact Hr]).
  destruct Hlast as [->|(r & Er & Hr)]; [|refine (eq_ind_r (fun z => Suf dsource_a 40 z) _ Er)]; unfold defs_source; cbn [map join]; unfold entry_source; cbn [fst snd]; rewrite <- ?app_assoc; apply (walk_to dsource_a 40 1); try (vm_compute; reflexivity).
  - destruct o as [d|]; [|rewrite app_nil_r; apply Hend, Ht]. apply (text_then _ t _ 1); [apply item_dsource|exact Ht|vm_compute; reflexivity|]. apply Hend, Ho.
  - destruct o as [d|]; [|apply Hmid; auto]. rewrite <- app_assoc. apply (text_then _ t _ 1); [apply item_dsource|exact Ht|vm_compute; reflexivity|]. apply Hmid; auto.
Qed.
Lemma join_snoc (l : list str) x y : join [10] (x :: l ++ [y]) = join [10] (x :: l) ++ [10] ++ y.
Proof. revert x. induction l as [|z l IH]; intros x; [reflexivity|]. change (join [10] (x :: (z :: l) ++ [y])) with (x ++ [10] ++ join [10] (z :: l ++ [y])). rewrite IH. change (join [10] (x :: z :: l)) with (x ++ [10] ++ join [10] (z :: l)). rewrite <- !app_assoc. reflexivity. Qed.
Lemma defs_html_ok l : Forall proper_entry l -> l <> [] -> accepts dresult_a (defs_html l) /\ exists v, defs_html l = v ++ u "</dl>".
Proof.
  intros H Hn. split.
  2:{ unfold defs_html. destruct l as [|e l]; [congruence|]. rewrite join_snoc. exists (join [10] (u "<dl>" :: flat_map entry_html (e :: l)) ++ [10]). rewrite <- app_assoc. reflexivity. }
  unfold accepts. change (au_start dresult_a) with 160%nat.
  assert (G : forall l q, Forall proper_entry l -> In q [311; 342; 343]%nat -> (q = 311%nat -> l <> []) -> Suf dresult_a q (join [10] (flat_map entry_html l ++ [u "</dl>"]))).
  { clear l H Hn. induction l as [|[t o] l IH]; intros q H Hq Hn.
    - cbn [flat_map app join]. rewrite <- (app_nil_r (u "</dl>")). cbn [In] in Hq. destruct Hq as [<-|[<-|[<-|[]]]]; [destruct (Hn eq_refl eq_refl)| |]; (apply (walk_to dresult_a _ 57); [vm_compute; reflexivity|constructor; left; reflexivity]).
    - inversion H as [|? ? [Ht Ho] Hl]; subst. cbn [fst snd] in *. cbn [flat_map]. rewrite <- app_assoc. set (R := flat_map entry_html l ++ [u "</dl>"]) in *.
      assert (RN : forall x : str, join [10] (x :: R) = x ++ [10] ++ join [10] R) by (intros x; unfold R; destruct (flat_map entry_html l); reflexivity).
      assert (Start : mem 1 (walk dresult_a [q] (u "	<dt>")) = true) by (cbn [In] in Hq; destruct Hq as [<-|[<-|[<-|[]]]]; vm_compute; reflexivity).
      unfold entry_html. cbn [fst snd]. destruct o as [d|]; cbn [app].
      + change (join [10] ((u "	<dt>" ++ t ++ u "</dt>") :: (u "	<dd>" ++ d ++ u "</dd>") :: R)) with ((u "	<dt>" ++ t ++ u "</dt>") ++ [10] ++ join [10] ((u "	<dd>" ++ d ++ u "</dd>") :: R)). rewrite RN.
        rewrite <- !app_assoc. apply (walk_to dresult_a q 1); [exact Start|]. apply (text_then _ t _ 340); [apply item_dresult|exact Ht|vm_compute; reflexivity|]. apply (walk_to dresult_a 340 342); [vm_compute; reflexivity|].
        apply (walk_to dresult_a 342 1); [vm_compute; reflexivity|]. apply (text_then _ d _ 341); [apply item_dresult|exact Ho|vm_compute; reflexivity|]. apply (walk_to dresult_a 341 343); [vm_compute; reflexivity|].
        apply IH; [exact Hl|cbn [In]; tauto|discriminate].
      + rewrite RN. rewrite <- !app_assoc. apply (walk_to dresult_a q 1); [exact Start|]. apply (text_then _ t _ 340); [apply item_dresult|exact Ht|vm_compute; reflexivity|]. apply (walk_to dresult_a 340 342); [vm_compute; reflexivity|].
        apply IH; [exact Hl|cbn [In]; tauto|discriminate]. }
  unfold defs_html. assert (join [10] (u "<dl>" :: flat_map entry_html l ++ [u "</dl>"]) = (u "<dl>" ++ [10]) ++ join [10] (flat_map entry_html l ++ [u "</dl>"])) as -> by (rewrite <- app_assoc; destruct (flat_map entry_html l); reflexivity).
  apply (walk_to dresult_a 160 311); [vm_compute; reflexivity|]. apply G; [exact H|cbn [In]; tauto|auto].
Qed.
Lemma defs_piece l : proper_defs l -> accepts dsource_a (defs_source l) /\ piece_of T (defs_source l).
Proof.
  intros Hp. pose proof (defs_ne l Hp) as Hn. assert (H : accepts dsource_a (defs_source l)) by (apply defs_source_ok; [exact Hn|apply Hp]).
  split; [exact H|]. assert (B : forall r, In r small_re -> no_match r (defs_source l)) by (intros r Hr; eapply never_in; [exact dsource_small|exact H|exact Hr]).
  assert (R : forall r, In r [TEXTILE_TAG_RE; DIVIDER_RE; NOTEDEF_RE] -> no_match (rx_re r) (defs_source l)) by (intros r Hr; eapply never_rx; [exact dsource_inert|exact H|cbn [In] in *; tauto]).
  constructor.
  - apply firm_of; apply B; cbn [In small_re]; tauto.
  - intros _. apply esc_id; apply no_match_ch, B; cbn [In small_re]; tauto.
  - apply lead_absent; auto. apply B; cbn [In small_re]; tauto.
  - rewrite not_lite. apply R. cbn [In]; tauto.
  - apply R. cbn [In]; tauto.
  - apply R. cbn [In]; tauto.
  - destruct (defs_head l Hn) as (r & ->). exists 45, (32 :: r). split; reflexivity.
Qed.
Lemma graf_defs fuel n l : (0 < fuel)%nat -> proper_defs l -> leaves T (graf_n W T fuel (S (S n)) (defs_source l)) (defs_html l).
Proof.
  intros Hf Hp. destruct (defs_piece l Hp) as [H PO]. pose proof (rc_stage fuel n l Hf Hp) as LS. destruct (defs_html_ok l (proj1 Hp) (defs_ne l Hp)) as [Hx (v & Ev)].
  set (t := defs_source l) in *. set (x := defs_html l) in *.
  assert (R : forall r, In r [SPECIAL_NOTEXTILE; SPECIAL_EQ; SPECIAL_CODE; SPECIAL_AT; SPECIAL_PRE; SPECIAL_COMMENT; RESTRICTED_URLREF_RE; UNRESTRICTED_URLREF_RE; QUOTED_QUOTE_RE; SLICE_RE; IMAGE_RE; TEXTILE_TAG_RE; DIVIDER_RE; NOTEDEF_RE] -> no_match (rx_re r) t)
    by (intros r Hr; eapply never_rx; [exact dsource_inert|exact H|exact Hr]).
  assert (R2 : no_match (rx_re TABLE_RE) (t ++ nl ++ nl)).
  { refine (never_ok _ _ _ _ dsource_tailed). apply (tail_ok dsource_a _ _ H); [intros y Hy; cbn [tailed_of au_trans]; apply in_or_app; auto|].
    intros f F. eapply SufCons with (l := newline) (q' := 200%nat); [|reflexivity|].
    - cbn [tailed_of au_trans]. apply in_or_app. right. apply in_or_app. left. apply in_map_iff. exists f. auto.
    - eapply SufCons with (l := newline) (q' := 201%nat); [|reflexivity|constructor; left; reflexivity]. cbn [tailed_of au_trans]. apply in_or_app. right. apply in_or_app. right. left. reflexivity. }
  assert (Rx : forall r, In r ([LIST_RE; FOOTNOTE_RE; NOTEREF_RE; BR_TAG_RE; PBR_TAG_RE] ++ TAG_PATTERNS) -> no_match (rx_re r) x) by (intros r Hr; eapply never_rx; [exact dresult_inert|exact Hx|exact Hr]).
  assert (Etr : trim_end_matches 10 x = x).
  { rewrite Ev. apply trim_end_by_id. intros r d F. change (u "</dl>") with (u "</dl" ++ [62]) in F. rewrite app_assoc in F. apply app_inj_tail in F as [_ <-]. reflexivity. }
  remember (S n) as n' eqn:En'. cbn [graf_n]. unfold graf_body. rewrite not_lite.
  eapply leaves_bind with (x := t). { unfold no_textile. eapply leaves_bind; apply leaves_replace, R; cbn [In]; tauto. }
  eapply leaves_bind with (x := t). { unfold code. eapply leaves_bind; [apply leaves_replace, R; cbn [In]; tauto|]. eapply leaves_bind; apply leaves_replace, R; cbn [In]; tauto. }
  eapply leaves_bind with (x := t). { apply leaves_replace, R. cbn [In]; tauto. }
  eapply leaves_bind with (x := t). { unfold get_refs. destruct (t_restricted T); apply leaves_replace, R; cbn [In]; tauto. }
  eapply leaves_bind with (x := t). { apply leaves_replace, R. cbn [In]; tauto. }
  eapply leaves_bind with (x := t). { apply links_inert; auto; [apply R; cbn [In]; tauto|]. unfold needle. apply contains_more. apply (p_uid _ _ PO). }
  eapply leaves_bind with (x := t). { apply leaves_if; intros _; [apply leaves_ret|]. apply leaves_replace, R. cbn [In]; tauto. }
  eapply leaves_bind with (x := t ++ nl ++ nl). { unfold table. rewrite captures_no_match by exact R2. apply leaves_ret. }
  eapply leaves_bind with (x := x). { subst n'. exact LS. }
  eapply leaves_bind with (x := x). { apply leaves_replace, Rx, in_or_app. left. cbn [In]. tauto. }
  eapply leaves_bind with (x := x). { apply leaves_pure, span_inert. intros r Hr. apply Rx, in_or_app. auto. }
  eapply leaves_bind with (x := x). { apply leaves_replace, Rx, in_or_app. left. cbn [In]. tauto. }
  eapply leaves_bind with (x := x). { apply leaves_replace, Rx, in_or_app. left. cbn [In]. tauto. }
  eapply leaves_bind with (x := x). { apply leaves_pure. apply (glyphs_weave dresult_a din_tag dresult_tagged T); auto. }
  rewrite Etr. apply leaves_ret.
Qed.
Lemma not_raw_dl a : has_raw_text (a ++ u "</dl>") = false.
Proof.
  unfold has_raw_text. assert (is_match (rx_re UNWRAPPABLE_RE) (a ++ u "</dl>") = true) as ->; [|reflexivity]. destruct (is_match _ _) eqn:E; auto. apply no_match_of in E. specialize (E a (u "</dl>") eq_refl).
  vm_compute in E; discriminate.
Qed.
Lemma defs_shown fuel l c s : (1 < fuel)%nat -> proper_defs l -> good_state T s0 c s -> exists s', shown_as W T fuel (defs_source l) (defs_html l) s s' /\ good_state T s0 c s'.
Proof.
  intros Hf Hp (C1 & C2 & C3). destruct fuel as [|[|n]]; [lia|lia|]. destruct (graf_defs (S (S n)) n l ltac:(lia) Hp s C1 C2) as (c2 & Hc2 & E). destruct (defs_html_ok l (proj1 Hp) (defs_ne l Hp)) as [Hx (v & Ev)].
  assert (Rx : forall r, In r ([LIST_RE; FOOTNOTE_RE; NOTEREF_RE; BR_TAG_RE; PBR_TAG_RE] ++ TAG_PATTERNS) -> no_match (rx_re r) (defs_html l)) by (intros r Hr; eapply never_rx; [exact dresult_inert|exact Hx|exact Hr]).
  exists (set_cache c2 s). split; [|split; [exact Hc2|split; [exact C2|exact C3]]]. split; [apply (defs_piece l Hp)|]. exists (defs_html l), (set_cache c2 s), (defs_html l). split; [exact E|]. split.
  - assert (wrapped (defs_html l) = defs_html l) as -> by (unfold wrapped; rewrite Ev, not_raw_dl; cbn [negb]; rewrite orb_true_r; reflexivity). unfold do_p_br. apply no_match_replaceM, Rx, in_or_app. left. cbn [In]. tauto.
  - apply replace_all_no_match, Rx, in_or_app. left. cbn [In]. tauto.
Qed.

(** ** Documents *)
Lemma passage_shown fuel p c x c' s : (1 < fuel)%nat -> proper_passage p -> good_state T s0 c s -> passage_html p c = Some (x, c') ->
  exists s', shown_as W T fuel (passage_source p) x s s' /\ good_state T s0 c' s'.
Proof.
  intros Hf Hp Hs E. destruct p as [p|l]; cbn [passage_source passage_html proper_passage] in *; [apply (part_shown W T uid_simple not_lite s0) with (c := c); auto; lia|].
  inversion E; subst. apply defs_shown; auto.
Qed.
Lemma passage_panics fuel p c s : (1 < fuel)%nat -> proper_passage p -> good_state T s0 c s -> passage_html p c = None -> graf W T fuel (passage_source p) s = Panic Overflow.
Proof.
  intros Hf Hp Hs E. destruct p as [p|l]; cbn [passage_source passage_html proper_passage] in *; [|discriminate]. apply (part_panics W T uid_simple not_lite s0) with (c := c); auto; lia.
Qed.
Lemma passage_piece p : proper_passage p -> piece_of T (passage_source p).
Proof. destruct p as [p|l]; intros H; [apply (part_piece T uid_simple not_lite p H)|apply (defs_piece l H)]. Qed.
Lemma passages_chain fuel l : (1 < fuel)%nat -> Forall proper_passage l -> forall c s, good_state T s0 c s ->
  match passages_html l c with
  | Some hs => exists s' c', ProofPieces.chain W T fuel (map passage_source l) hs s s' /\ good_state T s0 c' s'
  | None => exists a p b hs s', l = a ++ p :: b /\ ProofPieces.chain W T fuel (map passage_source a) hs s s' /\ graf W T fuel (passage_source p) s' = Panic Overflow
  end.
Proof.
  intros Hf. induction l as [|p l IH]; intros H c s Hs; cbn [passages_html map]; [exists s, c; split; [constructor|exact Hs]|]. inversion H as [|? ? Hp Hl]; subst.
  destruct (passage_html p c) as [[x c1]|] eqn:E.
  - destruct (passage_shown fuel p c x c1 s Hf Hp Hs E) as (s1 & S1 & G1). specialize (IH Hl c1 s1 G1). destruct (passages_html l c1) as [hs|].
    + destruct IH as (s' & c' & C & G). exists s', c'. split; [econstructor; eauto|exact G].
    + destruct IH as (a & q & b & hs & s' & -> & C & G). exists (p :: a), q, b, (x :: hs), s'. split; [reflexivity|]. split; [cbn [map]; econstructor; eauto|exact G].
  - exists [], p, l, [], s. split; [reflexivity|]. split; [constructor|]. apply passage_panics with (c := c); auto.
Qed.
Lemma passage_page p c x c' rest : proper_passage p -> passage_html p c = Some (x, c') -> Suf dpage_a 57 rest -> Suf dpage_a 160 (x ++ rest).
Proof.
  intros Hp E Hr. destruct p as [p|l]; cbn [passage_html proper_passage] in *.
  - assert (accepts page_a x) as Hx. { unfold accepts. change (au_start page_a) with 160%nat. rewrite <- (app_nil_r x). eapply (part_page p); eauto. constructor. left. reflexivity. }
    apply (tail_ok page_a 160 x Hx dpage_a page_dpage). intros f [<-|[]]. exact Hr.
  - inversion E; subst. destruct (defs_html_ok l (proj1 Hp) (defs_ne l Hp)) as [Hx _]. apply (tail_ok dresult_a 160 _ Hx dpage_a dl_dpage). intros f [<-|[]]. exact Hr.
Qed.
Lemma passages_page l : l <> [] -> Forall proper_passage l -> forall c hs, passages_html l c = Some hs -> accepts dpage_a (sections hs) /\ (forall x, In x hs -> exists v d, x = v ++ [d] /\ d <> 10).
Proof.
  unfold accepts. change (au_start dpage_a) with 160%nat. induction l as [|p l IH]; intros Hn H c hs E; [congruence|]. inversion H as [|? ? Hp Hl]; subst. cbn [passages_html] in E.
  destruct (passage_html p c) as [[x c1]|] eqn:E1; [|discriminate]. destruct (passages_html l c1) as [xs|] eqn:E2; [|discriminate]. inversion E; subst hs. clear E.
  assert (Lx : exists v d, x = v ++ [d] /\ d <> 10).
  { destruct p as [[t|k items]|e]; cbn [passage_html proper_passage part_html proper_part] in *.
    - assert (x = u "<p>" ++ t ++ u "</p>") as -> by congruence. exists ((u "<p>" ++ t) ++ u "</p"), 62. split; [rewrite <- !app_assoc; reflexivity|discriminate].
    - destruct (html_outer k items c x c1 Hp E1) as (_ & a & ->). destruct (ends_closing a k) as (v & ->). exists v, 62. split; [reflexivity|discriminate].
    - assert (x = defs_html e) as -> by congruence. destruct (defs_html_ok e (proj1 Hp) (defs_ne e Hp)) as [_ (v & ->)]. exists (v ++ u "</dl"), 62. split; [rewrite <- app_assoc; reflexivity|discriminate]. }
  destruct l as [|q l].
  - inversion E2; subst. cbn [sections]. split; [|intros y [<-|[]]; exact Lx]. rewrite <- (app_nil_r x). eapply passage_page; eauto. constructor. left. reflexivity.
  - destruct (IH ltac:(discriminate) Hl c1 xs E2) as [A B]. split; [|intros y [<-|Hy]; auto].
    assert (xs <> []) as Hx. { intros ->. cbn [passages_html] in E2. destruct (passage_html q c1) as [[? ?]|]; [|discriminate]. destruct (passages_html l _); discriminate. }
    rewrite sections_cons by exact Hx. eapply passage_page; eauto. apply (walk_to dpage_a 57 160 [10; 10]); [vm_compute; reflexivity|exact A].
Qed.
Lemma defs_document_from fuel l : s0 = new_state [] -> ready T -> (1 < fuel)%nat -> Forall proper_passage l ->
  match passages_html l from_one with
  | Some hs => exists s, parse W T fuel [] (sections (map passage_source l)) = Ret (sections hs) s
  | None => parse W T fuel [] (sections (map passage_source l)) = Panic Overflow
  end.
Proof.
  intros H0 Hr Hf H. assert (G : good_state T s0 from_one (new_state [])) by (repeat split; [apply cache_ok_nil|rewrite H0; reflexivity]). pose proof (passages_chain fuel l Hf H from_one _ G) as C.
  destruct (passages_html l from_one) as [hs|] eqn:E.
  - destruct l as [|p l]; [inversion E; subst; eexists; reflexivity|]. destruct C as (s' & c' & C & (G1 & G2 & _ & G4)). rewrite H0 in G4. destruct (passages_page (p :: l) ltac:(discriminate) H from_one hs E) as [A B].
    assert (R : forall r, In r [TEXT_NOTELIST_RE; BR_PATTERN] -> no_match (rx_re r) (sections hs)) by (intros r Hi; eapply never_rx; [exact dpage_inert|exact A|exact Hi]).
    eapply parse_shown with (s1 := s'); auto; try discriminate; try exact C; [lia|exact (f_equal ps_notes G4)|exact (f_equal ps_shelf G4)|apply R; cbn [In]; tauto|apply R; cbn [In]; tauto|]. apply lead_absent; auto. eapply never_ok; [exact A|exact dpage_lead].
  - destruct C as (a & p & b & hs & s' & -> & C & Hg). rewrite map_app. cbn [map]. eapply parse_panic; eauto; [apply Hr|]. intros x Hx. rewrite <- (map_cons passage_source p b) in Hx.
    apply in_map_iff in Hx as (q & <- & Hq). apply passage_piece. rewrite Forall_forall in H. apply H, in_or_app. right. exact Hq.
Qed.
End Defs.
Definition defs_document W T uid_simple not_lite fuel l := defs_document_from W T uid_simple not_lite (new_state []) fuel l eq_refl.
