(** Documents of prose. *)
From Verif Require Import Str Unicode Regex RegexParse RegexSnips RegexTheory RegexAuto RegexGroups RegexPath Lib ModelBase ModelHtml ModelUrl
  ModelAttrs ModelInline ModelParser SpecRegex ProofRegex ProofCharref SpecParse ProofParse Logic ProofWalk ProofState SpecState ProofMemory ProofCache ProofLinks ProofDoc
  SpecPlain ProofPlain SpecNewlines ProofNewlines ProofParas ProofTags ProofSections ProofBlocks ProofStateEx SpecDoc ProofDocument SpecText ProofText SpecSigned ProofSigned ProofSignedDoc ProofSignedPage ProofSignedEnd ProofSignedTop ProofPages ProofShown
  ProofSymbolsTop SpecGlyphs SpecGlyphRules SpecGlyphText ProofGlyphText SpecProse ProofProseText.
#[local] Arguments u : simpl never.

(** ** The automata *)
Lemma prose_stages : forallb (fun r => never (tailed_of prose) (rx_re r)) (stage_rx false false) = true.
Proof. vm_compute. reflexivity. Qed.
Lemma prose_block : forallb (fun r => never prose (rx_re r)) (TEXTILE_LIGHT_TAG_RE :: TEXTILE_TAG_RE :: DIVIDER_RE :: NOTEDEF_RE :: GLYPH_SPLITTER_RE :: []) = true.
Proof. vm_compute. reflexivity. Qed.
Lemma prose_small : forallb (never prose) before_small = true.
Proof. vm_compute. reflexivity. Qed.
Lemma set_small : forallb (never set_prose) (RCls (ch 40) :: before_small) = true.
Proof. vm_compute. reflexivity. Qed.
Lemma set_page : page_family set_prose = true.
Proof. vm_compute. reflexivity. Qed.

(** ** Prose is text that may have been set *)
Definition set_state (q : nat) : nat := match q with 0 => 0 | 1 => 1 | 3 | 10 => 3 | _ => 2 end%nat.
Lemma prose_set_suf q t : Suf prose q t -> Suf set_prose (set_state q) t.
Proof.
  induction 1 as [q H|q l q' c w Hi Hc Hs IH].
  - constructor. cbn in H |- *. repeat (destruct H as [<-|H]; [left; reflexivity|]). destruct H.
  - apply SufCons with l (set_state q'); auto. clear Hc Hs IH. cbn in Hi. repeat (destruct Hi as [Hi|Hi]; [injection Hi as <- <- <-; cbn; tauto|]). destruct Hi.
Qed.
(** ** Escaping *)
Lemma amp_state : forallb (fun tr => implb (in_cls (snd (fst tr)) 38) (Nat.eqb (snd tr) 2)) (au_trans prose) = true.
Proof. vm_compute. reflexivity. Qed.
Lemma prose_angle : forallb (fun tr => negb (in_cls (snd (fst tr)) 60) && negb (in_cls (snd (fst tr)) 62)) (au_trans prose) = true.
Proof. vm_compute. reflexivity. Qed.
Lemma esc_prose q t : Suf prose q t -> Suf prose q (esc t).
Proof.
  induction 1 as [q H|q l q' c w Hi Hc Hs IH]; [constructor; exact H|]. rewrite esc_cons. unfold encode_char. cbn [andb].
  pose proof amp_state as B. rewrite forallb_forall in B. specialize (B _ Hi). cbn [fst snd] in B. pose proof prose_angle as B2. rewrite forallb_forall in B2. specialize (B2 _ Hi). cbn [fst snd] in B2.
  destruct (N.eqb_spec c 38) as [->|].
  - rewrite Hc in B. apply Nat.eqb_eq in B. subst q'. apply SufCons with l 2%nat; auto.
    assert (forall c x, in_cls SpecPlain.letter c = true -> Suf prose 2 x -> Suf prose 2 (c :: x)) as L by (intros c x Hl Hx; apply SufCons with SpecPlain.letter 2%nat; auto; cbn; tauto).
    change (Suf prose 2 (97 :: 109 :: 112 :: 59 :: esc w)). apply L; [vm_compute; reflexivity|]. apply L; [vm_compute; reflexivity|]. apply L; [vm_compute; reflexivity|].
    apply SufCons with inside 2%nat; auto. cbn; tauto.
  - destruct (N.eqb_spec c 60) as [->|]; [rewrite Hc in B2; discriminate|]. destruct (N.eqb_spec c 62) as [->|]; [rewrite Hc, andb_false_r in B2; discriminate|]. econstructor; eauto.
Qed.
Lemma esc_few q t : Suf few q t -> Suf few q (esc t).
Proof.
  induction 1 as [q H|q l q' c w Hi Hc Hs IH]; [constructor; exact H|]. rewrite esc_cons.
  assert (q <= 2)%nat as Hq by (cbn in Hi; repeat (destruct Hi as [Hi|Hi]; [injection Hi as <- <- <-; lia|]); destruct Hi). apply few_hub in IH as IH0.
  unfold encode_char. cbn [andb]. destruct (N.eqb_spec c 38) as [->|]; [|destruct (N.eqb_spec c 60) as [->|]; [|destruct (N.eqb_spec c 62) as [->|]; [|econstructor; eauto]]].
  all: repeat (apply few_plain; [lia|vm_compute; reflexivity|]); exact IH0.
Qed.
Lemma esc_entities t : esc t = flat_map (entity false) t.
Proof.
  induction t as [|c t IH]; [reflexivity|]. rewrite esc_cons, IH. cbn [flat_map]. f_equal. unfold encode_char, entity. cbn [andb].
  destruct (N.eqb_spec c 38) as [->|]; [reflexivity|]. destruct (N.eqb_spec c 60) as [->|]; [reflexivity|]. destruct (N.eqb_spec c 62) as [->|]; [reflexivity|].
  destruct c as [|c]; [reflexivity|]. do 7 (destruct c as [c|c|]; try reflexivity; try congruence).
Qed.

Lemma typographic_is h t : typographic h t = rewritten (abbreviation_at h) (set_marks t).
Proof. unfold typographic, set_marks. reflexivity. Qed.
#[local] Opaque typographic set_marks rewritten.
Section Top.
Variables (W : world) (T : textile).
Hypothesis uid_simple : simple_uid (t_uid T).
Hypothesis caps : caps_set T.
Notation br := (br_tag T).
Notation fb := (final_br T).
Definition html5 : bool := match t_html T with HTML5 => true | XHTML => false end.
Definition seen (p : str) : str := if t_restricted T then esc p else p.
Definition made (p : str) : str := prose_set html5 (t_restricted T) p.
Lemma seen_accepts p : prose_text p -> accepts prose (seen p).
Proof. intros [H _]. unfold seen. destruct (t_restricted T); [apply esc_prose|]; exact H. Qed.
Lemma set_has c x : In (RCls (ch c)) (RCls (ch 40) :: before_small) -> accepts set_prose x -> ~ In c x.
Proof. intros Hc Hx. apply no_match_ch. eapply never_in; [exact set_small|exact Hx|exact Hc]. Qed.
(** The text that the rules start with. *)
Definition raw (p : str) : str := if t_restricted T then flat_map (entity false) p else escaped p.
Lemma raw_ok p : prose_text p -> accepts set_prose (raw p) /\ Suf few 0 (raw p).
Proof.
  intros [H1 H2]. assert (Suf few 0 p) as F by (apply (few_of p 0%nat []); [lia|reflexivity|reflexivity|exact H2]). unfold raw. destruct (t_restricted T).
  - rewrite <- esc_entities. split; [apply (prose_set_suf 0%nat), esc_prose; exact H1|apply esc_few; exact F].
  - assert (accepts set_prose (rewritten lone_ampersand_at p)) as G by (apply (rewritten_suf set_prose 2 set_hub set_ref); [exact ampersand_slim|apply (prose_set_suf 0%nat); exact H1]).
    rewrite no_angles by (apply set_has; [cbn [In before_small]; tauto|exact G]). split; [exact G|]. apply (rewritten_suf few 0 few_hub few_ref); [exact ampersand_slim|exact F].
Qed.
Lemma made_is p : prose_text p -> made p = set_marks (raw p).
Proof.
  intros H. destruct (raw_ok p H) as [H1 _]. transitivity (typographic html5 (raw p)); [reflexivity|]. rewrite typographic_is. apply no_abbreviation.
  apply set_has; [left; reflexivity|]. apply (marks_suf set_prose 2 set_hub set_ref). exact H1.
Qed.
Lemma made_accepts p : prose_text p -> accepts set_prose (made p).
Proof. intros H. rewrite made_is by exact H. apply (marks_suf set_prose 2 set_hub set_ref). apply raw_ok. exact H. Qed.
Lemma made_few p : prose_text p -> Suf few 0 (made p).
Proof. intros H. rewrite made_is by exact H. apply (marks_suf few 0 few_hub few_ref). apply raw_ok. exact H. Qed.
Lemma seen_small p r : prose_text p -> In r before_small -> no_match r (seen p).
Proof. intros H Hr. eapply never_in; [exact prose_small|apply seen_accepts; exact H|exact Hr]. Qed.
Lemma made_small p r : prose_text p -> In r before_small -> no_match r (made p).
Proof. intros H Hr. eapply never_in; [exact set_small|apply made_accepts; exact H|right; exact Hr]. Qed.
Lemma seen_rx p r : prose_text p -> In r (TEXTILE_LIGHT_TAG_RE :: TEXTILE_TAG_RE :: DIVIDER_RE :: NOTEDEF_RE :: GLYPH_SPLITTER_RE :: []) -> no_match (rx_re r) (seen p).
Proof. intros H Hr. eapply never_rx; [exact prose_block|apply seen_accepts; exact H|exact Hr]. Qed.
Lemma seen_uid p : prose_text p -> contains (t_uid T) (seen p) = false.
Proof. intros H. apply lead_absent; auto. apply seen_small; auto. cbn [In before_small]; tauto. Qed.
Lemma seen_staged p : prose_text p -> staged_by T (seen p).
Proof.
  intros H. destruct (fam_tailed prose (seen p) (seen_accepts p H)) as [H1 H2]. constructor.
  - intros r Hr. apply stage_more in Hr. pose proof prose_stages as B. rewrite forallb_forall in B. specialize (B r Hr). cbv beta in B. split; [exact (never_ok _ _ _ H1 B)|intros _; exact (never_ok _ _ _ H2 B)].
  - unfold needle. apply contains_more, seen_uid; auto.
  - apply no_end_newline, seen_small; auto; cbn [In before_small]; tauto.
Qed.
Lemma seen_glyphs p : prose_text p -> forall s, glyphs T (seen p) s = Ret (made p) s.
Proof.
  intros H s. rewrite glyphs_exact by assumption. rewrite (no_end_newline (seen p)) by (apply seen_small; auto; cbn [In before_small]; tauto).
  rewrite no_tags by (apply no_match_ch, seen_small; auto; cbn [In before_small]; tauto). f_equal. unfold typeset.
  assert ((if t_restricted T then seen p else escaped (seen p)) = raw p) as ->.
  { unfold seen, raw. destruct (t_restricted T); [apply esc_entities|reflexivity]. }
  transitivity (rewritten (capitals_at (t_uid T)) (made p)); [reflexivity|]. apply no_capitals, made_few. exact H.
Qed.
Definition para_for (p : str) : para := mk_para (seen p) (fun _ => made p) [] (fun b => breaks b (made p)).
Lemma made_60 p : prose_text p -> ~ In 60 (made p).
Proof. intros H. apply no_match_ch, made_small; auto; cbn [In before_small]; tauto. Qed.
Lemma made_uid p : prose_text p -> contains (t_uid T) (made p) = false.
Proof. intros H. apply lead_absent; auto. apply made_small; auto. cbn [In before_small]; tauto. Qed.
Lemma prose_start t : accepts prose t -> t <> [].
Proof. intros H ->. inversion H as [q Hf|]; subst. cbn in Hf. repeat (destruct Hf as [Hf|Hf]; [discriminate|]). destruct Hf. Qed.
Lemma prose_first t : accepts prose t -> exists c r, t = c :: r /\ is_ws c = false.
Proof.
  intros H. pose proof (prose_start _ H) as Hn. assert (no_match (start_cls space_cls) t) as Hsp by (eapply never_in; [exact prose_small|exact H|cbn [In before_small]; tauto]).
  destruct t as [|c r]; [congruence|]. exists c, r. split; auto. rewrite <- (no_start_cls space_cls c r Hsp). unfold in_cls, space_cls. cbn [c_neg c_items existsb in_item has_prop]. destruct (is_ws c); reflexivity.
Qed.
Lemma para_sound p : prose_text p -> sound W T set_prose (para_for p).
Proof.
  intros H. assert (firm (seen p)) as Hfirm by (apply firm_of; apply seen_small; auto; cbn [In before_small]; tauto).
  constructor; cbn [para_for p_source p_stage p_kept p_body].
  - exact Hfirm.
  - apply seen_uid; auto.
  - destruct (t_lite T); apply seen_rx; auto; cbn [In]; tauto.
  - apply seen_rx; auto; cbn [In]; tauto.
  - apply seen_rx; auto; cbn [In]; tauto.
  - apply prose_first, seen_accepts; exact H.
  - intros fuel n s Hf Hc Hb. destruct (graf_shown W T uid_simple fuel n (seen p) (made p) Hf (seen_staged p H) (seen_glyphs p H)) with (s := s) as (c & Hc' & E); auto.
    { apply no_end_newline, made_small; auto; cbn [In before_small]; tauto. }
    exists c. split; auto.
  - intros _. apply made_accepts; auto.
  - intros shelf n _. apply rs_plain. apply uid_breaks; auto; [left; apply br_is|apply made_uid; auto].
  - intros a b Hab. apply (element_brs br fb (u "p") (made p) a b (br_is T) (or_introl eq_refl)); [apply made_60; auto|exact Hab].
Qed.
Lemma prose_documents fuel ps : (1 < fuel)%nat -> t_sanitize T = None -> t_block_tags T = true -> (forall p, In p ps -> prose_text p) ->
  exists s, parse W T fuel [] (sections ps) = Ret (sections (map (fun p => element (u "p") (breaks fb (made p))) ps)) s.
Proof.
  intros Hf Hs Ht H. destruct ps as [|p0 ps0]; [eexists; reflexivity|]. set (ps := p0 :: ps0) in *.
  assert (forall p, In p (map para_for ps) -> sound W T set_prose p) as Hp.
  { intros p Hp. apply in_map_iff in Hp as (q & <- & Hq). apply para_sound; auto. }
  assert (forall x, In x (map p_source (map para_for ps)) -> firm x /\ uid_free T x) as F.
  { intros x Hx. apply in_map_iff in Hx as (p & <- & Hx). specialize (Hp p Hx). split; [apply (p_firm W T _ p Hp)|apply (p_free W T _ p Hp)]. }
  assert (prepare T (sections ps) = sections (map p_source (map para_for ps))) as E.
  { unfold prepare. replace (if t_restricted T then encode_html (sections ps) false false else sections ps) with (sections (map p_source (map para_for ps))).
    - rewrite normalize_tidy. rewrite tidy_sections by (intros s Hx; apply F; exact Hx). apply replace_absent; [apply uid_ne; auto|]. apply sections_uid; auto. intros x Hx. apply F. exact Hx.
    - rewrite map_map. cbn [para_for p_source]. unfold seen. destruct (t_restricted T) eqn:Er.
      + fold (esc (sections ps)). rewrite esc_sections. reflexivity.
      + rewrite map_id. reflexivity. }
  assert (is_empty (trim (sections ps)) = false) as Ht0.
  { destruct (prose_first p0) as (c & r & E0 & Hc); [apply H; left; reflexivity|]. unfold ps. rewrite E0. eapply trim_sections; [reflexivity|exact Hc]. }
  destruct (parse_paras W T set_prose uid_simple set_page fuel [] (sections ps) (map para_for ps)) as (s & Es); auto; [apply cache_ok_nil|discriminate|].
  exists s. rewrite Es. f_equal. rewrite map_map. reflexivity.
Qed.
End Top.
Lemma prose_pages W T fuel ps : ready T -> caps_set T -> (1 < fuel)%nat -> (forall p, In p ps -> prose_text p) ->
  exists s, parse W T fuel [] (sections ps) = Ret (sections (map (prose_html T) ps)) s.
Proof. intros (Hu & Ht & Hs) Hc Hf H. unfold prose_html. rewrite <- final_break. apply prose_documents; auto. Qed.

(** ** For examples *)
Lemma few_check t : forallb (fun k => match skipn k t with x :: y :: z :: _ => negb (SpecGlyphRules.capital x && SpecGlyphRules.capital y && SpecGlyphRules.capital z) | _ => true end) (seq 0 (List.length t)) = true -> few_capitals t.
Proof.
  intros H a x y z b E Hx Hy Hz. rewrite forallb_forall in H. specialize (H (List.length a)). rewrite E, skipn_app, skipn_all, Nat.sub_diag in H. cbn [skipn app] in H.
  rewrite Hx, Hy, Hz in H. discriminate H. apply in_seq. rewrite app_length. cbn. split; [apply Nat.le_0_l|]. apply Nat.lt_add_pos_r. apply Nat.lt_0_succ.
Qed.
