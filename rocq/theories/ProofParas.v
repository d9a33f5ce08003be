(** Documents of plain paragraphs and headings. *)
From Verif Require Import Str Unicode Regex RegexParse RegexSnips RegexTheory RegexAuto RegexGroups Lib ModelBase ModelHtml ModelUrl
  ModelAttrs ModelInline ModelParser SpecRegex ProofRegex SpecParse ProofParse Logic ProofWalk ProofState ProofMemory ProofCache ProofLinks ProofDoc
  SpecPlain ProofPlain SpecNewlines ProofNewlines.
#[local] Arguments u : simpl never.

(** ** Facts by automaton *)
Definition ch (c : N) : cls := mk_cls false [CRange c c].
Lemma in_ch c x : in_cls (ch c) x = (x =? c).
Proof. exact (in_one c x). Qed.
Lemma no_match_ch c t : no_match (RCls (ch c)) t -> ~ In c t.
Proof.
  intros H F. apply in_split in F. destruct F as (a & b & ->). specialize (H a (c :: b) eq_refl). unfold match_at in H.
  rewrite m_cls, in_ch, N.eqb_refl in H. discriminate.
Qed.
Fixpoint lit_re (w : str) (r : re) : re := match w with [] => r | c :: w' => RSeq (RCls (ch c)) (lit_re w' r) end.
Lemma m_lit_re w r : forall before rest cs k, m (lit_re w r) (mk_mst before (w ++ rest) cs) k = m r (mk_mst (rev w ++ before) rest cs) k.
Proof.
  induction w as [|c w IH]; intros before rest cs k; [reflexivity|]. cbn [lit_re app]. rewrite m_seq, m_cls, in_ch, N.eqb_refl, IH.
  cbn [rev]. rewrite <- app_assoc. reflexivity.
Qed.
Lemma contains_split p : forall t, contains p t = true -> exists a b, t = a ++ p ++ b.
Proof.
  induction t as [|c t IH]; cbn [contains]; intros H.
  - rewrite orb_false_r in H. apply starts_with_iff in H. destruct H as (r & E). exists [], r. exact E.
  - apply orb_prop in H. destruct H as [H|H].
    + apply starts_with_iff in H. destruct H as (r & ->). exists [], r. reflexivity.
    + destruct (IH H) as (a & b & ->). exists (c :: a), b. reflexivity.
Qed.
Lemma no_contains w k c0 rest t : no_match (lit_re w (RCls k)) t -> in_cls k c0 = true -> contains (w ++ c0 :: rest) t = false.
Proof.
  intros H Hk. destruct (contains _ t) eqn:E; auto. apply contains_split in E. destruct E as (a & b & ->).
  specialize (H a ((w ++ c0 :: rest) ++ b) eq_refl). unfold match_at in H. rewrite <- app_assoc in H. rewrite m_lit_re in H.
  cbn [app] in H. rewrite m_cls, Hk in H. discriminate.
Qed.
Lemma contains_more p q t : contains p t = false -> contains (p ++ q) t = false.
Proof.
  intros H. destruct (contains (p ++ q) t) eqn:E; auto. apply contains_split in E. destruct E as (a & b & ->).
  rewrite <- app_assoc in H. rewrite contains_mid in H. discriminate.
Qed.
Definition end_newline : re := RSeq (RCls (ch 10)) (RAssert EOT).
Lemma no_end_newline t : no_match end_newline t -> trim_end_matches 10 t = t.
Proof.
  intros H. apply trim_end_by_id. intros r c ->. destruct (N.eqb_spec 10 c) as [<-|]; auto.
  specialize (H r [10] eq_refl). unfold match_at, end_newline in H. rewrite m_seq, m_cls, in_ch in H. discriminate.
Qed.
Definition start_cls (k : cls) : re := RSeq (RAssert SOT) (RCls k).
Lemma no_start_cls k c t : no_match (start_cls k) (c :: t) -> in_cls k c = false.
Proof.
  intros H. specialize (H [] (c :: t) eq_refl). unfold match_at, start_cls in H. rewrite m_seq, m_assert in H. cbn [assert_holds is_empty rev] in H.
  rewrite m_cls in H. destruct (in_cls k c); [discriminate|reflexivity].
Qed.
Definition line_blank : re := RSeq (RAssert SOL) (RSeq (RStar true (RCls tab_blank)) (RAssert EOL)).
Lemma wf_line_blank : wf_re line_blank = true. Proof. reflexivity. Qed.
Lemma tail_ok A : forall q t, Suf A q t -> forall B, incl (au_trans A) (au_trans B) -> 
  forall rest, (forall f, In f (au_final A) -> Suf B f rest) -> Suf B q (t ++ rest).
Proof.
  intros q t H. induction H as [q Hf|q k q' c t Ht Hc Hs IH]; intros B Hi rest Hr.
  - apply Hr. exact Hf.
  - cbn [app]. econstructor; eauto.
Qed.

(** ** Paragraphs are inert *)
Definition tailed : auto := mk_auto (au_trans paragraph ++ map (fun q => (q, newline, 100%nat)) (au_final paragraph) ++ [(100, newline, 101)]%nat)
  (au_start paragraph) (101%nat :: au_final paragraph).
Lemma tailed_inline : forallb (fun r => never tailed (rx_re r)) (INLINE_RX ++ TAG_PATTERNS) = true.
Proof. vm_compute. reflexivity. Qed.
Definition BLOCK_RX : list rx :=
  [TEXTILE_TAG_RE; TEXTILE_LIGHT_TAG_RE; DIVIDER_RE; NOTEDEF_RE; UNWRAPPABLE_RE; WRAPPED_RE; PBR_BR_RE].
Lemma paragraph_glyph : forallb (fun r => never paragraph (rx_re r)) (GLYPH_RX ++ BLOCK_RX) = true.
Proof. vm_compute. reflexivity. Qed.
Definition not_here : cls := mk_cls true [CRange 32 32; CRange 10 10; CRange 60 60].
Definition uid_re : re := lit_re (u "textileRef:") (RCls not_here).
Definition space_cls : cls := mk_cls false [CProp false PSpace].
Lemma paragraph_small : forallb (never paragraph) [RCls (ch 60); RCls (ch 62); RCls (ch 38); RCls (ch 13); end_newline; uid_re; start_cls space_cls; line_blank] = true.
Proof. vm_compute. reflexivity. Qed.
Lemma never_in A l r t : forallb (never A) l = true -> accepts A t -> In r l -> no_match r t.
Proof. intros H Ha Hr. rewrite forallb_forall in H. eapply never_ok; eauto. Qed.
Lemma never_rx A l r t : forallb (fun r => never A (rx_re r)) l = true -> accepts A t -> In r l -> no_match (rx_re r) t.
Proof. intros H Ha Hr. rewrite forallb_forall in H. eapply never_ok; eauto. Qed.

Lemma paragraph_start : ~ In (au_start paragraph) (au_final paragraph).
Proof. cbn. intuition discriminate. Qed.
Lemma paragraph_ne t : accepts paragraph t -> t <> [].
Proof. intros H ->. inversion H; subst. apply paragraph_start; auto. Qed.

(** A uid that cannot arise from plain text. *)
Definition uid_fresh (uid : str) : Prop := exists c0 rest, uid = u "textileRef:" ++ c0 :: rest /\ in_cls not_here c0 = true.

Section Paras.
Variables (W : world) (T : textile).
Hypothesis uid_ok : uid_plain (t_uid T) = true.
Hypothesis uid_new : uid_fresh (t_uid T).

Lemma uid_absent t : no_match uid_re t -> contains (t_uid T) t = false.
Proof. intros H. destruct uid_new as (c0 & rest & -> & Hc). eapply no_contains; eauto. Qed.
Lemma para_tailed t : accepts paragraph t -> accepts tailed t /\ accepts tailed (t ++ nl ++ nl).
Proof.
  intros H. split.
  - unfold accepts. rewrite <- (app_nil_r t). apply (tail_ok paragraph _ _ H).
    + intros x Hx. cbn [tailed au_trans]. apply in_or_app. auto.
    + intros f Hf. constructor. right. exact Hf.
  - apply (tail_ok paragraph _ _ H).
    + intros x Hx. cbn [tailed au_trans]. apply in_or_app. auto.
    + intros f Hf. eapply SufCons with (l := newline) (q' := 100%nat); [|reflexivity|].
      * cbn [tailed au_trans]. apply in_or_app. right. apply in_or_app. left. apply in_map_iff. exists f. auto.
      * eapply SufCons with (l := newline) (q' := 101%nat); [|reflexivity|constructor; left; reflexivity].
        cbn [tailed au_trans]. apply in_or_app. right. apply in_or_app. right. left. reflexivity.
Qed.
Lemma para_small t r : accepts paragraph t ->
  In r [RCls (ch 60); RCls (ch 62); RCls (ch 38); RCls (ch 13); end_newline; uid_re; start_cls space_cls; line_blank] -> no_match r t.
Proof. intros H Hr. eapply never_in; eauto using paragraph_small. Qed.
Lemma para_inert t : accepts paragraph t -> inert T t.
Proof.
  intros H. destruct (para_tailed t H) as [H1 H2]. constructor.
  - intros r Hr. assert (In r (INLINE_RX ++ TAG_PATTERNS)) as Hr' by (apply in_or_app; auto).
    split; eapply never_rx; eauto using tailed_inline.
  - intros r Hr. eapply never_rx; [exact paragraph_glyph|auto|apply in_or_app; auto].
  - split; apply no_match_ch, para_small; auto; cbn; tauto.
  - unfold needle. apply contains_more, uid_absent, para_small; auto; cbn; tauto.
  - apply no_end_newline, para_small; auto; cbn; tauto.
Qed.
Lemma para_block t r : accepts paragraph t -> In r BLOCK_RX -> no_match (rx_re r) t.
Proof. intros H Hr. eapply never_rx; [exact paragraph_glyph|auto|apply in_or_app; auto]. Qed.
Lemma para_raw t : accepts paragraph t -> has_raw_text t = true.
Proof.
  intros H. unfold has_raw_text. rewrite !is_match_no_match by (apply para_block; auto; cbn; tauto). 
  rewrite captures_no_match by (apply para_block; auto; cbn; tauto). reflexivity.
Qed.
Lemma para_first t : accepts paragraph t -> exists c r, t = c :: r /\ is_ws c = false.
Proof.
  intros H. pose proof (paragraph_ne t H) as Hn. destruct t as [|c r]; [congruence|]. exists c, r. split; auto.
  pose proof (no_start_cls space_cls c r) as E. rewrite <- E; [|apply para_small; auto; cbn; tauto].
  unfold in_cls, space_cls. cbn [c_neg c_items existsb in_item has_prop]. destruct (is_ws c); reflexivity.
Qed.
Lemma para_trim t : accepts paragraph t -> is_empty (trim t) = false.
Proof.
  intros H. destruct (para_first t H) as (c & r & -> & Hc). destruct (is_empty _) eqn:E; auto. apply is_empty_nil in E.
  unfold trim in E. apply trim_by_nil in E. cbn [forallb] in E. rewrite Hc in E. discriminate.
Qed.
End Paras.
