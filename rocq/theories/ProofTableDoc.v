(** Documents of paragraphs of one line, lists and tables. *)
From Coq Require Import ZArith.
From Verif Require Import Str Unicode Regex RegexParse RegexSnips RegexTheory RegexAuto RegexGroups Lib ModelBase ModelHtml ModelUrl
  ModelAttrs ModelInline ModelParser SpecRegex ProofRegex SpecHtml ProofHtml ProofCharref SpecParse ProofParse Logic ProofWalk ProofState SpecState ProofMemory ProofCache ProofLinks ProofSpan ProofDoc
  SpecPlain ProofPlain SpecNewlines ProofNewlines ProofParas ProofTags ProofSections ProofBlocks ProofStateEx SpecDoc ProofDocument SpecText ProofText ProofPieces ProofWeave SpecLists ProofLists ProofListText ProofListDoc SpecTables ProofTables ProofTableRows.
#[local] Arguments u : simpl never.

Lemma table_inert : forallb (fun r => never table_a (rx_re r)) [BR_TAG_RE; PBR_TAG_RE] = true.
Proof. vm_compute. reflexivity. Qed.
Lemma table_tailed : forallb (fun r => never (tailed_of table_a) (rx_re r)) ([RC_PATTERN; LIST_RE; FOOTNOTE_RE; NOTEREF_RE] ++ TAG_PATTERNS) = true.
Proof. vm_compute. reflexivity. Qed.
Definition table_tag_states : list nat := Eval vm_compute in seq 302 8 ++ seq 340 4 ++ [357; 370; 384; 385; 394; 452; 456; 464]%nat ++ seq 360 5 ++ seq 380 4 ++ seq 390 4 ++ seq 410 5 ++ seq 430 8 ++ seq 600 6 ++ [450; 451; 454; 455; 460; 461; 462; 463]%nat.
Lemma table_tagged : tagged table_a table_tag_states = true.
Proof. vm_compute. reflexivity. Qed.
Lemma tailed_accepts A t : accepts A t -> accepts (tailed_of A) (t ++ nl ++ nl).
Proof.
  intros H. apply (tail_ok A _ _ H); [intros y Hy; cbn [tailed_of au_trans]; apply in_or_app; auto|].
  intros f F. eapply SufCons with (l := newline) (q' := 200%nat); [|reflexivity|].
  - cbn [tailed_of au_trans]. apply in_or_app. right. apply in_or_app. left. apply in_map_iff. exists f. auto.
  - eapply SufCons with (l := newline) (q' := 201%nat); [|reflexivity|constructor; left; reflexivity]. cbn [tailed_of au_trans]. apply in_or_app. right. apply in_or_app. right. left. reflexivity.
Qed.
(** What is fine in restricted mode is fine otherwise. *)
Lemma table_free b t : proper_table b t -> proper_table false t.
Proof.
  intros (H1 & H2 & H3 & H4). split; [exact H1|]. split; [|split; [exact H3|exact H4]]. intros r Hr. destruct (H2 r Hr) as [N Hc]. split; [exact N|]. intros c Ic. split; [exact (proj1 (Hc c Ic))|discriminate].
Qed.
Lemma table_end t : exists a, table_html t = a ++ u "</table>".
Proof. exists (u "	<table>" ++ caption_html t ++ flat_map group_html (t_groups t) ++ flat_map row_html (t_loose t) ++ u "
	"). unfold table_html. rewrite <- !app_assoc. reflexivity. Qed.
Lemma table_end_62 t : exists v, table_html t = v ++ [62].
Proof. destruct (table_end t) as (a & ->). exists (a ++ u "</table"). rewrite <- app_assoc. reflexivity. Qed.
Lemma table_trim t : trim_end_matches 10 (table_html t) = table_html t.
Proof. destruct (table_end_62 t) as (v & ->). apply trim_end_by_id. intros r d F. apply app_inj_tail in F as [_ <-]. reflexivity. Qed.
Lemma table_trim2 t : trim_end_matches 10 (table_html t ++ nl ++ nl) = table_html t.
Proof.
  destruct (table_end_62 t) as (v & E). rewrite <- (table_trim t) at 2. unfold trim_end_matches, trim_end_by. rewrite !rev_app_distr. reflexivity.
Qed.
Lemma table_not_raw t : has_raw_text (table_html t) = false.
Proof.
  destruct (table_end t) as (a & ->).
  unfold has_raw_text. assert (is_match (rx_re UNWRAPPABLE_RE) (a ++ u "</table>") = true) as ->; [|reflexivity]. destruct (is_match _ _) eqn:E; auto. apply no_match_of in E. specialize (E a (u "</table>") eq_refl).
  vm_compute in E. discriminate.
Qed.
Section Tables.
Variables (W : world) (T : textile).
Hypothesis uid_simple : simple_uid (t_uid T).
Hypothesis not_lite : t_lite T = false.
Let uid_ok : uid_plain (t_uid T) = true := uid_simple_plain _ uid_simple.
Notation br := (br_tag T).
Variable s0 : pstate.
Notation good_state := (good_state T s0).
Lemma table_piece t : proper_table (t_restricted T) t -> accepts rows_a (table_source t) /\ piece_of T (table_source t).
Proof.
  intros Hp. pose proof (table_free _ t Hp) as Hf. assert (H : accepts rows_a (table_source t)) by (apply (rows_accepts true); exact Hf). split; [exact H|].
  pose proof rows_small as Sm. apply andb_prop in Sm as [S1 S2].
  assert (B : forall r, In r (tl (tl rows_re)) -> no_match r (table_source t)) by (intros r Hi; eapply never_in; [exact S1|exact H|exact Hi]).
  assert (R : forall r, In r [TEXTILE_TAG_RE; DIVIDER_RE; NOTEDEF_RE] -> no_match (rx_re r) (table_source t)) by (intros r Hi; eapply never_rx; [exact rows_inert|exact H|cbn [In] in *; tauto]).
  constructor.
  - apply firm_of; apply B; cbn [In tl rows_re]; tauto.
  - intros Er. rewrite Er in Hp. assert (H0 : accepts (rows_of_a false) (table_source t)) by (apply (rows_accepts false); exact Hp).
    assert (B0 : forall r, In r (firstn 2 rows_re) -> no_match r (table_source t)) by (intros r Hi; eapply never_in; [exact S2|exact H0|exact Hi]).
    apply esc_id; apply no_match_ch; first [apply B; cbn [In tl rows_re]; tauto | apply B0; cbn [In firstn rows_re]; tauto].
  - apply lead_absent; auto. apply B; cbn [In tl rows_re]; tauto.
  - rewrite not_lite. apply R. cbn [In]; tauto.
  - apply R. cbn [In]; tauto.
  - apply R. cbn [In]; tauto.
  - destruct (source_ends t Hf) as (w & ->). exists 124, (w ++ [124]). split; reflexivity.
Qed.
Lemma graf_table fuel n t : (0 < fuel)%nat -> proper_table (t_restricted T) t -> leaves T (graf_n W T fuel (S n) (table_source t)) (table_html t).
Proof.
  intros Hf Hp. destruct (table_piece t Hp) as [H PO]. pose proof (table_done T (graf_n W T fuel n) not_lite t (table_free _ t Hp)) as L8.
  pose proof (table_shape _ t Hp) as Hx. pose proof (tailed_accepts _ _ Hx) as Hx2. pose proof (table_trim t) as Et. pose proof (table_trim2 t) as Et2.
  set (x := table_html t) in *. set (w := table_source t) in *.
  assert (R : forall r, In r [SPECIAL_NOTEXTILE; SPECIAL_EQ; SPECIAL_CODE; SPECIAL_AT; SPECIAL_PRE; SPECIAL_COMMENT; RESTRICTED_URLREF_RE; UNRESTRICTED_URLREF_RE; QUOTED_QUOTE_RE; SLICE_RE; IMAGE_RE; TEXTILE_TAG_RE; DIVIDER_RE; NOTEDEF_RE] -> no_match (rx_re r) w)
    by (intros r Hi; eapply never_rx; [exact rows_inert|exact H|exact Hi]).
  assert (R2 : forall r, In r ([RC_PATTERN; LIST_RE; FOOTNOTE_RE; NOTEREF_RE] ++ TAG_PATTERNS) -> no_match (rx_re r) (x ++ nl ++ nl)) by (intros r Hi; eapply never_rx; [exact table_tailed|exact Hx2|exact Hi]).
  cbn [graf_n]. unfold graf_body. rewrite not_lite.
  eapply leaves_bind with (x := w); [unfold no_textile; eapply leaves_bind; apply leaves_replace, R; cbn [In]; tauto|].
  eapply leaves_bind with (x := w); [unfold code; eapply leaves_bind; [apply leaves_replace, R; cbn [In]; tauto|]; eapply leaves_bind; apply leaves_replace, R; cbn [In]; tauto|].
  eapply leaves_bind with (x := w); [apply leaves_replace, R; cbn [In]; tauto|].
  eapply leaves_bind with (x := w); [unfold get_refs; destruct (t_restricted T); apply leaves_replace, R; cbn [In]; tauto|].
  eapply leaves_bind with (x := w); [apply leaves_replace, R; cbn [In]; tauto|].
  eapply leaves_bind with (x := w).
  { apply links_inert; auto; [apply R; cbn [In]; tauto|]. unfold needle. apply contains_more. apply (p_uid _ _ PO). }
  eapply leaves_bind with (x := w); [apply leaves_if; intros _; [apply leaves_ret|apply leaves_replace, R; cbn [In]; tauto]|].
  eapply leaves_bind with (x := x ++ nl ++ nl); [exact L8|].
  eapply leaves_bind with (x := x ++ nl ++ nl); [apply leaves_replace, R2, in_or_app; left; cbn [In]; tauto|].
  eapply leaves_bind with (x := x ++ nl ++ nl); [unfold textile_lists; apply leaves_replace, R2, in_or_app; left; cbn [In]; tauto|].
  eapply leaves_bind with (x := x ++ nl ++ nl); [apply leaves_pure, span_inert; intros r Hi; apply R2, in_or_app; auto|].
  eapply leaves_bind with (x := x ++ nl ++ nl); [apply leaves_replace, R2, in_or_app; left; cbn [In]; tauto|].
  eapply leaves_bind with (x := x ++ nl ++ nl); [apply leaves_replace, R2, in_or_app; left; cbn [In]; tauto|].
  eapply leaves_bind with (x := x).
  { apply leaves_pure. intros s. unfold glyphs. rewrite Et2. pose proof (glyphs_weave table_a table_tag_states table_tagged T x Hx Et s) as G. unfold glyphs in G. rewrite Et in G. exact G. }
  rewrite Et. apply leaves_ret.
Qed.
Lemma table_shown fuel t c s : (0 < fuel)%nat -> proper_table (t_restricted T) t -> good_state c s ->
  exists s', shown_as W T fuel (table_source t) (table_html t) s s' /\ good_state c s'.
Proof.
  intros Hf Hp Hs. destruct fuel as [|n]; [lia|]. pose proof Hs as (C1 & C2 & C3). destruct (graf_table (S n) n t Hf Hp s C1 C2) as (c2 & Hc2 & E).
  pose proof (table_shape _ t Hp) as Hx.
  assert (Rx : forall r, In r [BR_TAG_RE; PBR_TAG_RE] -> no_match (rx_re r) (table_html t)) by (intros r Hi; eapply never_rx; [exact table_inert|exact Hx|exact Hi]).
  exists (set_cache c2 s). split; [|split; [exact Hc2|split; [exact C2|exact C3]]]. split; [apply table_piece; exact Hp|]. exists (table_html t), (set_cache c2 s), (table_html t). split; [exact E|]. split.
  - assert (wrapped (table_html t) = table_html t) as -> by (unfold wrapped; rewrite table_not_raw; cbn [negb]; rewrite orb_true_r; reflexivity). unfold do_p_br. apply no_match_replaceM, Rx. cbn [In]. tauto.
  - apply replace_all_no_match, Rx. cbn [In]. tauto.
Qed.
(** ** Documents *)
Lemma piece_shown fuel p c x c' s : (0 < fuel)%nat -> proper_piece (t_restricted T) p -> good_state c s -> piece_html p c = Some (x, c') ->
  exists s', shown_as W T fuel (piece_source p) x s s' /\ good_state c' s'.
Proof.
  intros Hf Hp Hs E. destruct p as [p|t]; cbn [piece_source piece_html proper_piece] in *; [eapply part_shown; eauto|].
  assert (x = table_html t) as -> by congruence. assert (c' = c) as -> by congruence. apply table_shown; auto.
Qed.
Lemma piece_panics fuel p c s : (0 < fuel)%nat -> proper_piece (t_restricted T) p -> good_state c s -> piece_html p c = None -> graf W T fuel (piece_source p) s = Panic Overflow.
Proof. intros Hf Hp Hs E. destruct p as [p|t]; cbn [piece_source piece_html proper_piece] in *; [eapply part_panics; eauto|discriminate]. Qed.
Lemma piece_piece p : proper_piece (t_restricted T) p -> piece_of T (piece_source p).
Proof. destruct p as [p|t]; intros H; [apply part_piece; auto|apply table_piece; exact H]. Qed.
Lemma pieces_chain fuel l : (0 < fuel)%nat -> Forall (proper_piece (t_restricted T)) l -> forall c s, good_state c s ->
  match pieces_html l c with
  | Some hs => exists s' c', ProofPieces.chain W T fuel (map piece_source l) hs s s' /\ good_state c' s'
  | None => exists a p b hs s', l = a ++ p :: b /\ ProofPieces.chain W T fuel (map piece_source a) hs s s' /\ graf W T fuel (piece_source p) s' = Panic Overflow
  end.
Proof.
  intros Hf. induction l as [|p l IH]; intros H c s Hs; cbn [pieces_html map]; [exists s, c; split; [constructor|exact Hs]|]. inversion H as [|? ? Hp Hl]; subst.
  destruct (piece_html p c) as [[x c1]|] eqn:E.
  - destruct (piece_shown fuel p c x c1 s Hf Hp Hs E) as (s1 & S1 & G1). specialize (IH Hl c1 s1 G1). destruct (pieces_html l c1) as [hs|].
    + destruct IH as (s' & c' & C & G). exists s', c'. split; [econstructor; eauto|exact G].
    + destruct IH as (a & q & b & hs & s' & -> & C & G). exists (p :: a), q, b, (x :: hs), s'. split; [reflexivity|]. split; [cbn [map]; econstructor; eauto|exact G].
  - exists [], p, l, [], s. split; [reflexivity|]. split; [constructor|]. apply piece_panics with (c := c); auto.
Qed.
Definition leaf_a : auto := Eval vm_compute in mk_auto (au_trans page_a ++ au_trans table_a ++ reads 160 501 (u "	<table>") 320 ++ [(445, newline, 58)]%nat) 160%nat [57; 445]%nat.
Lemma leaf_inert : forallb (fun r => never leaf_a (rx_re r)) [TEXT_NOTELIST_RE; BR_PATTERN] = true.
Proof. vm_compute. reflexivity. Qed.
Lemma leaf_lead : never leaf_a uid_lead = true.
Proof. vm_compute. reflexivity. Qed.
Lemma page_leaf : incl (au_trans page_a) (au_trans leaf_a).
Proof. intros x H. change (au_trans leaf_a) with (au_trans page_a ++ skipn (List.length (au_trans page_a)) (au_trans leaf_a)). apply in_or_app. left. exact H. Qed.
Lemma table_leaf : incl (au_trans table_a) (au_trans leaf_a).
Proof. intros x H. change (au_trans leaf_a) with (au_trans page_a ++ au_trans table_a ++ reads 160 501 (u "	<table>") 320 ++ [(445, newline, 58)]%nat). apply in_or_app. right. apply in_or_app. left. exact H. Qed.
Lemma piece_leaf p c x c' rest : proper_piece (t_restricted T) p -> piece_html p c = Some (x, c') -> (forall q, In q [57; 445]%nat -> Suf leaf_a q rest) -> Suf leaf_a 160 (x ++ rest).
Proof.
  intros Hp E Hr. destruct p as [p|t]; cbn [piece_html proper_piece] in *.
  - pose proof (part_page p c x c' [] Hp E) as Hx. rewrite app_nil_r in Hx. apply (tail_ok page_a 160 x); [apply Hx; constructor; left; reflexivity|apply page_leaf|]. intros f [<-|[]]. apply Hr. left. reflexivity.
  - assert (x = table_html t) as -> by congruence. unfold table_html. rewrite <- app_assoc. apply (walk_to leaf_a 160 320); [vm_compute; reflexivity|]. apply (tail_ok table_a 320 _ (table_rest _ t Hp) leaf_a table_leaf). intros f [<-|[]]. apply Hr. right. left. reflexivity.
Qed.
Lemma pieces_leaf l : l <> [] -> Forall (proper_piece (t_restricted T)) l -> forall c hs, pieces_html l c = Some hs -> accepts leaf_a (sections hs) /\ (forall x, In x hs -> exists v d, x = v ++ [d] /\ d <> 10).
Proof.
  unfold accepts. change (au_start leaf_a) with 160%nat. induction l as [|p l IH]; intros Hn H c hs E; [congruence|]. inversion H as [|? ? Hp Hl]; subst. cbn [pieces_html] in E.
  destruct (piece_html p c) as [[x c1]|] eqn:E1; [|discriminate]. destruct (pieces_html l c1) as [xs|] eqn:E2; [|discriminate]. inversion E; subst hs. clear E.
  assert (Lx : exists v d, x = v ++ [d] /\ d <> 10).
  { destruct p as [p|t]; cbn [piece_html proper_piece] in *.
    - pose proof (parts_page [p] ltac:(discriminate) (Forall_cons p Hp (Forall_nil _)) c [x]) as P. cbn [parts_html] in P. rewrite E1 in P. apply (P eq_refl). left. reflexivity.
    - assert (x = table_html t) as -> by congruence. destruct (table_end_62 t) as (v & ->). exists v, 62. split; [reflexivity|discriminate]. }
  destruct l as [|q l].
  - inversion E2; subst. cbn [sections]. split; [|intros y [<-|[]]; exact Lx]. rewrite <- (app_nil_r x). eapply piece_leaf; eauto. intros f Hf. constructor. exact Hf.
  - destruct (IH ltac:(discriminate) Hl c1 xs E2) as [A B]. split; [|intros y [<-|Hy]; auto].
    assert (xs <> []) as Hx. { intros ->. cbn [pieces_html] in E2. destruct (piece_html q c1) as [[? ?]|]; [|discriminate]. destruct (pieces_html l _); discriminate. }
    rewrite sections_cons by exact Hx. eapply piece_leaf; eauto. intros f [<-|[<-|[]]]; [apply (walk_to leaf_a 57 160 [10; 10])|apply (walk_to leaf_a 445 160 [10; 10])]; try exact A; vm_compute; reflexivity.
Qed.
Lemma tables_document_from fuel l : s0 = new_state [] -> ready T -> (0 < fuel)%nat -> Forall (proper_piece (t_restricted T)) l ->
  match pieces_html l from_one with
  | Some hs => exists s, parse W T fuel [] (sections (map piece_source l)) = Ret (sections hs) s
  | None => parse W T fuel [] (sections (map piece_source l)) = Panic Overflow
  end.
Proof.
  intros H0 Hr Hf H. assert (G : good_state from_one (new_state [])) by (repeat split; [apply cache_ok_nil|rewrite H0; reflexivity]). pose proof (pieces_chain fuel l Hf H from_one _ G) as C.
  destruct (pieces_html l from_one) as [hs|] eqn:E.
  - destruct l as [|p l]; [inversion E; subst; eexists; reflexivity|]. destruct C as (s' & c' & C & (G1 & G2 & _ & G4)). rewrite H0 in G4. destruct (pieces_leaf (p :: l) ltac:(discriminate) H from_one hs E) as [A B].
    assert (R : forall r, In r [TEXT_NOTELIST_RE; BR_PATTERN] -> no_match (rx_re r) (sections hs)) by (intros r Hi; eapply never_rx; [exact leaf_inert|exact A|exact Hi]).
    eapply parse_shown with (s1 := s'); auto; try discriminate; try exact C; [exact (f_equal ps_notes G4)|exact (f_equal ps_shelf G4)|apply R; cbn [In]; tauto|apply R; cbn [In]; tauto|]. apply lead_absent; auto. eapply never_ok; [exact A|exact leaf_lead].
  - destruct C as (a & p & b & hs & s' & -> & C & Hg). rewrite map_app. cbn [map]. eapply parse_panic; eauto; [apply Hr|]. intros x Hx. rewrite <- (map_cons piece_source p b) in Hx.
    apply in_map_iff in Hx as (q & <- & Hq). apply piece_piece. rewrite Forall_forall in H. apply H, in_or_app. right. exact Hq.
Qed.
End Tables.
Definition tables_document W T uid_simple not_lite fuel l := tables_document_from W T uid_simple not_lite (new_state []) fuel l eq_refl.

(** ** Blocks without a table *)
Lemma mat_ws s s' : Mat (RStar true (RCls ws_cls)) s s' -> exists w, forallb is_ws w = true /\ m_after s = w ++ m_after s'.
Proof.
  intros H. remember (RStar true (RCls ws_cls)) as r eqn:Er. induction H; try discriminate.
  - exists []. split; reflexivity.
  - injection Er as Eg Ea. subst. inversion H; subst. destruct IHMat2 as (w & Hw & E); [reflexivity|]. exists (x :: w). cbn [forallb app]. cbn [step m_after] in E. rewrite <- E. split; [|assumption].
    rewrite Hw, andb_true_r. match goal with Hc : in_cls ws_cls x = true |- _ => revert Hc end. unfold in_cls, ws_cls. cbn [c_neg c_items existsb in_item has_prop]. destruct (is_ws x); auto.
Qed.
Lemma mat_seq a b s s' : Mat (RSeq a b) s s' -> exists s1, Mat a s s1 /\ Mat b s1 s'.
Proof. intros H. inversion H; subst. eauto. Qed.
Lemma mat_cls k s s' : Mat (RCls k) s s' -> exists x, in_cls k x = true /\ m_after s = x :: m_after s'.
Proof. intros H. inversion H; subst. eauto. Qed.
Lemma mat_group n a s s' : Mat (RGroup n a) s s' -> exists s1, Mat a s s1 /\ m_after s1 = m_after s'.
Proof. intros H. inversion H; subst. eauto. Qed.
Lemma mat_after r s s' : Mat r s s' -> exists w, m_after s = w ++ m_after s'.
Proof. intros H. apply Mat_moved in H as (w & H & _). eauto. Qed.
Lemma table_absent t : no_table t -> no_match (rx_re TABLE_RE) (t ++ nl ++ nl).
Proof.
  intros [H1 H2] a0 b0 E0. destruct (match_at (rx_re TABLE_RE) (rev a0) b0) as [s'|] eqn:E; [|reflexivity]. exfalso.
  apply match_at_sound in E. destruct t_shape as (ra & rx & ry & Es & _). rewrite Es in E.
  apply mat_seq in E as (s1 & X1 & E). apply mat_seq in E as (s2 & X2 & E). apply mat_seq in E as (s3 & X3 & E). apply mat_seq in E as (s4 & X4 & E). apply mat_group in X4 as (s5 & X4 & E5).
  apply mat_seq in X4 as (s6 & X6 & X4). apply mat_seq in X4 as (s7 & X7 & X4). apply mat_seq in X4 as (s8 & X8 & X4). apply mat_seq in X4 as (s9 & X9 & X4). apply mat_seq in X4 as (s10 & X10 & X4). apply mat_seq in X4 as (s11 & X11 & X4).
  apply mat_cls in X4 as (x & Hx & X4). unfold bar in Hx. rewrite in_one in Hx. apply N.eqb_eq in Hx. subst x.
  apply mat_seq in E as (s12 & X12 & E). apply mat_ws in X12 as (w & Hw & X12). apply mat_seq in E as (s13 & X13 & E). apply mat_cls in X13 as (y & Hy & X13). apply mat_cls in E as (z & Hz & E). rewrite in_one in Hy, Hz. apply N.eqb_eq in Hy, Hz. subst y z.
  assert (exists a, t ++ [10; 10] = a ++ 124 :: w ++ 10 :: 10 :: m_after s') as (a & Ea).
  { apply mat_after in X1 as (w1 & F1), X2 as (w2 & F2), X3 as (w3 & F3), X6 as (w6 & F6), X7 as (w7 & F7), X8 as (w8 & F8), X9 as (w9 & F9), X10 as (w10 & F10), X11 as (w11 & F11). cbn [m_after] in F1.
    exists (a0 ++ w1 ++ w2 ++ w3 ++ w6 ++ w7 ++ w8 ++ w9 ++ w10 ++ w11). change [10; 10] with (nl ++ nl). rewrite E0, F1, F2, F3, F6, F7, F8, F9, F10, F11, X4, E5, X12, X13, E. rewrite <- !app_assoc. reflexivity. }
  assert (B : forall v, forallb is_ws v = true -> t <> a ++ 124 :: v).
  { intros v Hv F. destruct (H2 a v F) as (c & Hc & Hn). rewrite forallb_forall in Hv. rewrite (Hv c Hc) in Hn. discriminate. }
  remember (m_after s') as r eqn:Er. clear - Ea Hw B H1. destruct r as [|z r _] using rev_ind.
  - apply (B w Hw). replace (a ++ 124 :: w ++ [10; 10]) with ((a ++ 124 :: w) ++ [10; 10]) in Ea by (rewrite <- app_assoc; reflexivity). apply app_inv_tail in Ea. exact Ea.
  - change [10; 10] with ([10] ++ [10]) in Ea. rewrite app_assoc in Ea. replace (a ++ 124 :: w ++ 10 :: 10 :: r ++ [z]) with ((a ++ 124 :: w ++ 10 :: 10 :: r) ++ [z]) in Ea by (rewrite <- app_assoc; cbn [app]; rewrite <- app_assoc; reflexivity).
    apply app_inj_tail in Ea as [Ea _]. destruct r as [|z2 r _] using rev_ind.
    + replace (a ++ 124 :: w ++ [10; 10]) with ((a ++ 124 :: w ++ [10]) ++ [10]) in Ea by (rewrite <- app_assoc; cbn [app]; rewrite <- app_assoc; reflexivity). apply app_inv_tail in Ea. apply (B (w ++ [10])); [|exact Ea]. rewrite forallb_app, Hw. reflexivity.
    + replace (a ++ 124 :: w ++ 10 :: 10 :: r ++ [z2]) with ((a ++ 124 :: w ++ 10 :: 10 :: r) ++ [z2]) in Ea by (rewrite <- app_assoc; cbn [app]; rewrite <- app_assoc; reflexivity).
      apply app_inj_tail in Ea as [Ea _]. apply (H1 (a ++ 124 :: w) r). rewrite Ea, <- app_assoc. reflexivity.
Qed.
Lemma table_kept T graf t s : no_table t -> table T graf t s = Ret (t ++ nl ++ nl) s.
Proof. intros H. unfold table. rewrite captures_no_match by (apply table_absent; exact H). reflexivity. Qed.

(** ** One table *)
Lemma one_table W T fuel t : ready T -> t_lite T = false -> (0 < fuel)%nat -> proper_table (t_restricted T) t -> exists s, parse W T fuel [] (table_source t) = Ret (table_html t) s.
Proof.
  intros Hr Hl Hf Hp. pose proof (tables_document W T (proj1 Hr) Hl fuel [ATable t] Hr Hf) as D. cbn [pieces_html piece_html map piece_source sections] in D. apply D. apply Forall_cons; [exact Hp|apply Forall_nil].
Qed.
Lemma in_order_pre a l s : in_order l s -> in_order l (a ++ s).
Proof. intros H. inversion H; subst; [constructor|]. rewrite app_assoc. constructor. assumption. Qed.
Lemma rows_in_order rs : forall l s, in_order l s -> in_order (map row_html rs ++ l) (flat_map row_html rs ++ s).
Proof. induction rs as [|r rs IH]; intros l s H; [exact H|]. cbn [map flat_map app]. rewrite <- app_assoc. apply (InOrderCons []). apply IH. exact H. Qed.
Lemma groups_in_order gs : forall l s, in_order l s -> in_order (map row_html (flat_map snd gs) ++ l) (flat_map group_html gs ++ s).
Proof.
  induction gs as [|g gs IH]; intros l s H; [exact H|]. cbn [flat_map]. rewrite map_app, <- !app_assoc. unfold group_html at 1. rewrite <- !app_assoc. do 3 apply in_order_pre. apply rows_in_order. do 3 apply in_order_pre. apply IH. exact H.
Qed.
Lemma table_in_order t : t_loose t = [] \/ t_groups t = [] -> in_order (map row_html (all_rows t)) (table_html t).
Proof.
  intros H. unfold table_html, all_rows. do 2 apply in_order_pre. rewrite <- (app_nil_r (map row_html _)). destruct H as [-> | ->]; cbn [flat_map app].
  - apply groups_in_order. constructor.
  - rewrite (app_nil_r (t_loose t)). apply rows_in_order. constructor.
Qed.
Lemma full_cell_is c : valign_first c -> cell_html c = u "
			" ++ full_cell c.
Proof.
  intros H. unfold cell_html, full_cell, cell_atts. f_equal. assert (cell_style c = full_style c) as ->.
  { unfold cell_style, full_style. destruct H as [H|(H1 & H2 & H3)]; [rewrite H; destruct (c_head c), (c_col c), (c_row c); reflexivity|]. rewrite H1, H2, H3. reflexivity. }
  cbv zeta. destruct (c_head c); rewrite <- !app_assoc; reflexivity.
Qed.
Lemma cell_within t r c : In r (all_rows t) -> In c r -> exists a b, table_html t = a ++ cell_html c ++ b.
Proof.
  intros Hr Hc. assert (F : forall (X : Type) (f : X -> str) (x : X) l, In x l -> exists a b, flat_map f l = a ++ f x ++ b).
  { intros X f x l. induction l as [|y l IH]; intros [].
    - subst y. exists [], (flat_map f l). reflexivity.
    - destruct (IH H) as (a & b & E). exists (f y ++ a), b. cbn [flat_map]. rewrite E, <- app_assoc. reflexivity. }
  assert (R : exists a b, row_html r = a ++ cell_html c ++ b).
  { destruct (F _ cell_html c r Hc) as (a & b & E). unfold row_html. rewrite E. exists (u "
		<tr>" ++ a), (b ++ u "
		</tr>"). rewrite <- !app_assoc. reflexivity. }
  destruct R as (a & b & E). unfold all_rows in Hr. apply in_app_or in Hr as [Hr|Hr].
  - destruct (F _ row_html r _ Hr) as (a2 & b2 & E2). unfold table_html. rewrite E2, E. exists (u "	<table>" ++ caption_html t ++ flat_map group_html (t_groups t) ++ a2 ++ a), (b ++ b2 ++ u "
	</table>"). rewrite <- !app_assoc. reflexivity.
  - apply in_flat_map in Hr as (g & Hg & Hr). destruct (F _ row_html r _ Hr) as (a2 & b2 & E2). destruct (F _ group_html g _ Hg) as (a3 & b3 & E3). unfold table_html. rewrite E3. unfold group_html at 1. rewrite E2, E.
    exists (u "	<table>" ++ caption_html t ++ a3 ++ u "
	<" ++ group_name (fst g) ++ u ">" ++ a2 ++ a), (b ++ b2 ++ u "
	</" ++ group_name (fst g) ++ u ">" ++ b3 ++ flat_map row_html (t_loose t) ++ u "
	</table>"). rewrite <- !app_assoc. reflexivity.
Qed.
Lemma rows_ordered W T fuel t : ready T -> t_lite T = false -> (0 < fuel)%nat -> proper_table (t_restricted T) t -> t_loose t = [] \/ t_groups t = [] ->
  exists html s, parse W T fuel [] (table_source t) = Ret html s /\ in_order (map row_html (all_rows t)) html.
Proof. intros H1 H2 H3 H4 H5. destruct (one_table W T fuel t H1 H2 H3 H4) as (s & E). exists (table_html t), s. split; [exact E|]. apply table_in_order. exact H5. Qed.
Lemma marks_kept W T fuel t : ready T -> t_lite T = false -> (0 < fuel)%nat -> proper_table (t_restricted T) t ->
  exists html s, parse W T fuel [] (table_source t) = Ret html s /\ forall r c, In r (all_rows t) -> In c r -> valign_first c -> exists a b, html = a ++ full_cell c ++ b.
Proof.
  intros H1 H2 H3 H4. destruct (one_table W T fuel t H1 H2 H3 H4) as (s & E). exists (table_html t), s. split; [exact E|]. intros r c Hr Hc Hv. destruct (cell_within t r c Hr Hc) as (a & b & Et). rewrite Et, full_cell_is by exact Hv.
  exists (a ++ u "
			"), b. rewrite <- !app_assoc. reflexivity.
Qed.
