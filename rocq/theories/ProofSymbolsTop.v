(** Documents with typographic symbols. *)
From Verif Require Import Str Unicode Regex RegexParse RegexSnips RegexTheory RegexAuto RegexGroups RegexPath Lib ModelBase ModelHtml ModelUrl
  ModelAttrs ModelInline ModelParser SpecRegex ProofRegex ProofCharref SpecParse ProofParse Logic ProofWalk ProofState SpecState ProofMemory ProofCache ProofLinks ProofDoc
  SpecPlain ProofPlain SpecNewlines ProofNewlines ProofParas ProofTags ProofSections ProofBlocks ProofStateEx SpecDoc ProofDocument SpecText ProofText SpecSigned ProofSigned ProofSignedDoc ProofSignedPage ProofSignedEnd ProofSignedTop ProofPages ProofShown ProofStock
  SpecSymbols ProofSymbolAuto ProofSymbolStep ProofSymbolHits ProofSymbolWords.
#[local] Arguments u : simpl never.

(** ** All replacements *)
Lemma replaced_html5 first rest : proper_text first rest -> multi_replace (with_symbols (at_stage 1) first rest) HTML5_GLYPH_REPLACERS = with_symbols (at_stage 23) first rest.
Proof.
  intros H. unfold multi_replace, HTML5_GLYPH_REPLACERS, glyph_replacers. cbn [fold_left fst snd].
  rewrite step_times, step_apos, step_decade, step_sopenb, step_sclose, step_sopen, step_dopenb, step_dclose, step_dopen, step_dots, step_amp_again, step_em_dash, step_en_dash,
    step_tm, step_reg, step_copy, step_half, step_quarter, step_three_quarters, step_degree, step_plus_minus, step_acronym by exact H. reflexivity.
Qed.
Lemma replaced_xhtml first rest : proper_text first rest -> multi_replace (with_symbols (at_stage 1) first rest) XHTML_GLYPH_REPLACERS = with_symbols (at_stage 23) first rest.
Proof.
  intros H. unfold multi_replace, XHTML_GLYPH_REPLACERS, glyph_replacers. cbn [fold_left fst snd].
  rewrite step_times, step_apos, step_decade, step_sopenb, step_sclose, step_sopen, step_dopenb, step_dclose, step_dopen, step_dots, step_amp_again, step_em_dash, step_en_dash,
    step_tm, step_reg, step_copy, step_half, step_quarter, step_three_quarters, step_degree, step_plus_minus, step_acronym by exact H. reflexivity.
Qed.
Lemma multi_app t l l' : multi_replace t (l ++ l') = multi_replace (multi_replace t l) l'.
Proof. unfold multi_replace. apply fold_left_app. Qed.
Lemma replaced T first rest : proper_text first rest -> multi_replace (with_symbols (at_stage 1) first rest) (all_replacers T) = with_symbols (at_stage 24) first rest.
Proof.
  intros H. unfold all_replacers. rewrite multi_app. assert (multi_replace (with_symbols (at_stage 1) first rest) (match t_html T with XHTML => XHTML_GLYPH_REPLACERS | HTML5 => HTML5_GLYPH_REPLACERS end) = with_symbols (at_stage 23) first rest) as ->.
  { destruct (t_html T); [apply replaced_xhtml|apply replaced_html5]; exact H. }
  unfold multi_replace. cbn [fold_left fst snd]. apply step_dyn. exact H.
Qed.
Lemma shown_stage s : at_stage 24 s = shown s.
Proof. destruct s; reflexivity. Qed.
Lemma typed_stage s : at_stage 0 s = typed s.
Proof. destruct s; reflexivity. Qed.
Lemma form_ext f g first rest : (forall s, f s = g s) -> with_symbols f first rest = with_symbols g first rest.
Proof. intros H. unfold with_symbols. f_equal. induction rest as [|p rest IH]; [reflexivity|]. cbn [flat_map]. rewrite H, IH. reflexivity. Qed.

(** ** The automata *)
Definition before_small : list re := [RCls (ch 60); RCls (ch 62); RCls (ch 13); end_newline; uid_lead; start_cls space_cls; line_blank].
Lemma before_0 : forallb (fun r => never (tailed_of (pool_auto 0)) (rx_re r)) (stage_rx false false) = true.
Proof. vm_compute. reflexivity. Qed.
Lemma before_1 : forallb (fun r => never (tailed_of (pool_auto 1)) (rx_re r)) (stage_rx false false) = true.
Proof. vm_compute. reflexivity. Qed.
Lemma para_0 : forallb (fun r => never (pool_auto 0) (rx_re r)) (TEXTILE_LIGHT_TAG_RE :: TEXTILE_TAG_RE :: DIVIDER_RE :: NOTEDEF_RE :: GLYPH_SPLITTER_RE :: []) = true.
Proof. vm_compute. reflexivity. Qed.
Lemma para_1 : forallb (fun r => never (pool_auto 1) (rx_re r)) (TEXTILE_LIGHT_TAG_RE :: TEXTILE_TAG_RE :: DIVIDER_RE :: NOTEDEF_RE :: GLYPH_SPLITTER_RE :: []) = true.
Proof. vm_compute. reflexivity. Qed.
Lemma small_0 : forallb (never (pool_auto 0)) before_small = true.
Proof. vm_compute. reflexivity. Qed.
Lemma small_1 : forallb (never (pool_auto 1)) before_small = true.
Proof. vm_compute. reflexivity. Qed.
Lemma small_24 : forallb (never (pool_auto 24)) before_small = true.
Proof. vm_compute. reflexivity. Qed.
Lemma page_24 : page_family (pool_auto 24) = true.
Proof. vm_compute. reflexivity. Qed.
Lemma stage_more lite noimage r : In r (stage_rx lite noimage) -> In r (stage_rx false false).
Proof.
  unfold stage_rx. rewrite !in_app_iff. intros [H|[H|H]]; [left; destruct lite; [destruct H|exact H]|right; left; destruct noimage; [destruct H|exact H]|right; right; exact H].
Qed.

(** ** Escaping in restricted mode *)
Lemma esc_words w : (forall c, In c w -> 48 <= c <= 57 \/ 97 <= c <= 122) -> esc w = w.
Proof. intros H. apply esc_id; intros F; apply H in F; lia. Qed.
Lemma esc_symbol s : proper_symbol s -> esc (at_stage 0 s) = at_stage 1 s.
Proof.
  intros H. destruct s; cbn [proper_symbol] in H; try reflexivity.
  all: cbn [at_stage late Nat.leb Nat.eqb typed]; rewrite ?esc_app.
  all: repeat match goal with |- context [esc ?w] => is_var w; rewrite (esc_words w) by (intros c Hc; first [destruct H as [[_ H1] [_ H2]] | destruct H as [[_ H1] H2] | destruct H as [_ H1]]; first [left; apply H1; exact Hc | left; apply H2; exact Hc | right; apply H1; exact Hc | right; apply H2; exact Hc]) end.
  all: reflexivity.
Qed.
Lemma words_esc q w : Suf paragraph q w -> esc w = w.
Proof.
  intros H. assert (forall c, In c w -> exists q l q', In (q, l, q') (au_trans paragraph) /\ in_cls l c = true) as F.
  { induction H as [|q l q' c w Ht Hc Hs IH]; intros d Hd; [destruct Hd|]. destruct Hd as [<-|Hd]; [eauto|apply IH; exact Hd]. }
  assert (forallb (fun t => negb (in_cls (snd (fst t)) 38) && negb (in_cls (snd (fst t)) 60) && negb (in_cls (snd (fst t)) 62)) (au_trans paragraph) = true) as B by (vm_compute; reflexivity).
  rewrite forallb_forall in B. apply esc_id; intros G; destruct (F _ G) as (q1 & l & q2 & Hi & Hc); specialize (B _ Hi); cbn [fst snd] in B; rewrite Hc in B; rewrite ?andb_false_r in B; discriminate.
Qed.
Lemma esc_para (p : symbols) : proper_text (fst p) (snd p) -> esc (with_symbols (at_stage 0) (fst p) (snd p)) = with_symbols (at_stage 1) (fst p) (snd p).
Proof.
  intros [H1 H2]. unfold with_symbols. rewrite esc_app, (words_esc 0 (fst p) H1). f_equal. induction (snd p) as [|[s w] rest IH]; [reflexivity|]. cbn [flat_map fst snd]. rewrite !esc_app.
  destruct (H2 s w (or_introl eq_refl)) as [Hs Hw]. rewrite (esc_symbol s Hs), (words_esc 8 w (more_suf w Hw)), IH by (intros; apply H2; right; auto). reflexivity.
Qed.
Definition first_stage (T : textile) : nat := if t_restricted T then 1%nat else 0%nat.
Section Top.
Variables (W : world) (T : textile).
Hypothesis uid_simple : simple_uid (t_uid T).
Notation br := (br_tag T).
Notation fb := (final_br T).
Notation k0 := (first_stage T).
Let before_k : forallb (fun r => never (tailed_of (pool_auto k0)) (rx_re r)) (stage_rx false false) = true.
Proof. unfold first_stage. destruct (t_restricted T); [apply before_1|apply before_0]. Qed.
Let para_k : forallb (fun r => never (pool_auto k0) (rx_re r)) (TEXTILE_LIGHT_TAG_RE :: TEXTILE_TAG_RE :: DIVIDER_RE :: NOTEDEF_RE :: GLYPH_SPLITTER_RE :: []) = true.
Proof. unfold first_stage. destruct (t_restricted T); [apply para_1|apply para_0]. Qed.
Let small_k : forallb (never (pool_auto k0)) before_small = true.
Proof. unfold first_stage. destruct (t_restricted T); [apply small_1|apply small_0]. Qed.
Definition seen (p : symbols) : str := with_symbols (at_stage k0) (fst p) (snd p).
Definition made (p : symbols) : str := with_symbols shown (fst p) (snd p).
Definition proper_para (p : symbols) : Prop := proper_text (fst p) (snd p).
Lemma seen_accepts p : proper_para p -> accepts (pool_auto k0) (seen p).
Proof. apply pool_text. Qed.
Lemma made_accepts p : proper_para p -> accepts (pool_auto 24) (made p).
Proof. intros H. unfold made. rewrite (form_ext shown (at_stage 24)) by (intros; symmetry; apply shown_stage). apply pool_text. exact H. Qed.
Lemma seen_small p r : proper_para p -> In r before_small -> no_match r (seen p).
Proof. intros H Hr. eapply never_in; [exact small_k|apply seen_accepts; exact H|exact Hr]. Qed.
Lemma made_small p r : proper_para p -> In r before_small -> no_match r (made p).
Proof. intros H Hr. eapply never_in; [exact small_24|apply made_accepts; exact H|exact Hr]. Qed.
Lemma seen_rx p r : proper_para p -> In r (TEXTILE_LIGHT_TAG_RE :: TEXTILE_TAG_RE :: DIVIDER_RE :: NOTEDEF_RE :: GLYPH_SPLITTER_RE :: []) -> no_match (rx_re r) (seen p).
Proof. intros H Hr. eapply never_rx; [exact para_k|apply seen_accepts; exact H|exact Hr]. Qed.
Lemma seen_uid p : proper_para p -> contains (t_uid T) (seen p) = false.
Proof. intros H. apply lead_absent; auto. apply seen_small; auto. cbn [In before_small]; tauto. Qed.
Lemma seen_staged p : proper_para p -> staged_by T (seen p).
Proof.
  intros H. destruct (fam_tailed (pool_auto k0) (seen p) (seen_accepts p H)) as [H1 H2]. constructor.
  - intros r Hr. apply stage_more in Hr. pose proof before_k as B. rewrite forallb_forall in B. specialize (B r Hr). cbv beta in B. split; [exact (never_ok _ _ _ H1 B)|intros _; exact (never_ok _ _ _ H2 B)].
  - unfold needle. apply contains_more, seen_uid; auto.
  - apply no_end_newline, seen_small; auto; cbn [In before_small]; tauto.
Qed.
Lemma seen_glyphs p : proper_para p -> forall s, glyphs T (seen p) s = Ret (made p) s.
Proof.
  intros H s. unfold glyphs. rewrite (no_end_newline (seen p)) by (apply seen_small; auto; cbn [In before_small]; tauto).
  unfold splitM, bind. rewrite split_no_match by (apply seen_rx; auto; cbn [In]; tauto). cbn [of_opt ret glyph_chunks List.concat]. rewrite app_nil_r.
  unfold ret. f_equal. unfold glyph_chunk, made. rewrite (form_ext shown (at_stage 24)) by (intros; symmetry; apply shown_stage). rewrite <- (replaced T) by exact H. f_equal.
  assert (forall c, In (RCls (ch c)) before_small -> ~ In c (with_symbols (at_stage 1) (fst p) (snd p))) as N1.
  { intros c Hc. apply no_match_ch. eapply never_in; [exact small_1|apply pool_text; exact H|exact Hc]. }
  unfold seen, first_stage. destruct (t_restricted T); [reflexivity|]. rewrite step_amp by exact H.
  rewrite (replace_char_none 60) by (apply N1; cbn [In before_small]; tauto). apply replace_char_none, N1. cbn [In before_small]; tauto.
Qed.
Definition para_for (p : symbols) : para := mk_para (seen p) (fun _ => made p) [] (fun b => breaks b (made p)).
Lemma made_60 p : proper_para p -> ~ In 60 (made p).
Proof. intros H. apply no_match_ch, made_small; auto; cbn [In before_small]; tauto. Qed.
Lemma made_uid p : proper_para p -> contains (t_uid T) (made p) = false.
Proof. intros H. apply lead_absent; auto. apply made_small; auto. cbn [In before_small]; tauto. Qed.
Lemma pool_start k t : accepts (pool_auto k) t -> t <> [].
Proof. intros H ->. inversion H as [q Hf|]; subst. cbn in Hf. repeat (destruct Hf as [Hf|Hf]; [discriminate|]). destruct Hf. Qed.
Lemma para_sound p : proper_para p -> sound W T (pool_auto 24) (para_for p).
Proof.
  intros H. assert (firm (seen p)) as Hfirm by (apply firm_of; apply seen_small; auto; cbn [In before_small]; tauto).
  constructor; cbn [para_for p_source p_stage p_kept p_body].
  - exact Hfirm.
  - apply seen_uid; auto.
  - destruct (t_lite T); apply seen_rx; auto; cbn [In]; tauto.
  - apply seen_rx; auto; cbn [In]; tauto.
  - apply seen_rx; auto; cbn [In]; tauto.
  - pose proof (pool_start _ _ (seen_accepts p H)) as Hn. pose proof (seen_small p (start_cls space_cls) H ltac:(cbn [In before_small]; tauto)) as Hsp.
    destruct (seen p) as [|c r]; [congruence|]. exists c, r. split; auto.
    rewrite <- (no_start_cls space_cls c r Hsp). unfold in_cls, space_cls. cbn [c_neg c_items existsb in_item has_prop]. destruct (is_ws c); reflexivity.
  - intros fuel n s Hf Hc Hb. destruct (graf_shown W T uid_simple fuel n (seen p) (made p) Hf (seen_staged p H) (seen_glyphs p H)) with (s := s) as (c & Hc' & E); auto.
    { apply no_end_newline, made_small; auto; cbn [In before_small]; tauto. }
    exists c. split; auto.
  - intros _. apply made_accepts; auto.
  - intros shelf n _. apply rs_plain. apply uid_breaks; auto; [left; apply br_is|apply made_uid; auto].
  - intros a b Hab. apply (element_brs br fb (u "p") (made p) a b (br_is T) (or_introl eq_refl)); [apply made_60; auto|exact Hab].
Qed.
Definition source_of (p : symbols) : str := with_symbols typed (fst p) (snd p).
Lemma source_seen p : proper_para p -> (if t_restricted T then esc (source_of p) else source_of p) = seen p.
Proof.
  intros H. unfold source_of, seen, first_stage. rewrite (form_ext typed (at_stage 0)) by (intros; symmetry; apply typed_stage). destruct (t_restricted T); [apply esc_para; exact H|reflexivity].
Qed.
Lemma symbol_documents fuel ps : (1 < fuel)%nat -> t_sanitize T = None -> t_block_tags T = true -> (forall p, In p ps -> proper_para p) ->
  exists s, parse W T fuel [] (sections (map source_of ps)) = Ret (sections (map (fun p => element (u "p") (breaks fb (made p))) ps)) s.
Proof.
  intros Hf Hs Ht H. destruct ps as [|p0 ps0]; [eexists; reflexivity|]. set (ps := p0 :: ps0) in *.
  assert (forall p, In p (map para_for ps) -> sound W T (pool_auto 24) p) as Hp.
  { intros p Hp. apply in_map_iff in Hp as (q & <- & Hq). apply para_sound; auto. }
  assert (forall x, In x (map p_source (map para_for ps)) -> firm x /\ uid_free T x) as F.
  { intros x Hx. apply in_map_iff in Hx as (p & <- & Hx). specialize (Hp p Hx). split; [apply (p_firm W T _ p Hp)|apply (p_free W T _ p Hp)]. }
  assert (prepare T (sections (map source_of ps)) = sections (map p_source (map para_for ps))) as E.
  { unfold prepare. replace (if t_restricted T then encode_html (sections (map source_of ps)) false false else sections (map source_of ps)) with (sections (map p_source (map para_for ps))).
    - rewrite normalize_tidy. rewrite tidy_sections by (intros s Hx; apply F; exact Hx). apply replace_absent; [apply uid_ne; auto|]. apply sections_uid; auto. intros x Hx. apply F. exact Hx.
    - rewrite map_map. cbn [para_for p_source]. destruct (t_restricted T) eqn:Er.
      + fold (esc (sections (map source_of ps))). rewrite esc_sections, map_map. f_equal. apply map_ext_in. intros p Hi. rewrite <- source_seen by auto. rewrite Er. reflexivity.
      + f_equal. apply map_ext_in. intros p Hi. rewrite <- source_seen by auto. rewrite Er. reflexivity. }
  assert (is_empty (trim (sections (map source_of ps))) = false) as Ht0.
  { assert (proper_para p0) as H0 by (apply H; left; reflexivity). assert (accepts (pool_auto 0) (source_of p0)) as Ha.
    { unfold source_of. rewrite (form_ext typed (at_stage 0)) by (intros; symmetry; apply typed_stage). apply pool_text. exact H0. }
    pose proof (pool_start _ _ Ha) as Hn. assert (no_match (start_cls space_cls) (source_of p0)) as Hsp by (eapply never_in; [exact small_0|exact Ha|cbn [In before_small]; tauto]).
    destruct (source_of p0) as [|c r] eqn:E0; [congruence|]. eapply trim_sections; [cbn [ps map]; rewrite E0; reflexivity|].
    rewrite <- (no_start_cls space_cls c r Hsp). unfold in_cls, space_cls. cbn [c_neg c_items existsb in_item has_prop]. destruct (is_ws c); reflexivity. }
  destruct (parse_paras W T (pool_auto 24) uid_simple page_24 fuel [] (sections (map source_of ps)) (map para_for ps)) as (s & Es); auto; [apply cache_ok_nil|discriminate|].
  exists s. rewrite Es. f_equal. rewrite map_map. reflexivity.
Qed.
End Top.
Lemma symbol_pages W T fuel ps : ready T -> (1 < fuel)%nat -> (forall p, In p ps -> proper_text (fst p) (snd p)) ->
  exists s, parse W T fuel [] (sections (map symbols_text ps)) = Ret (sections (map (symbols_html (line_break T)) ps)) s.
Proof. intros (Hu & Ht & Hs) Hf H. rewrite <- final_break. apply symbol_documents; auto. Qed.
