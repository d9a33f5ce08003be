(** Documents of paragraphs with links. *)
From Verif Require ProofHtml.
From Verif Require Import Str Unicode Regex RegexParse RegexSnips RegexTheory RegexAuto RegexGroups Lib ModelBase ModelHtml ModelUrl
  ModelAttrs ModelInline ModelParser SpecRegex ProofRegex ProofCharref SpecParse ProofParse Logic ProofWalk ProofState SpecState ProofMemory ProofCache SpecLinks ProofLinks ProofDoc
  SpecPlain ProofPlain SpecNewlines ProofNewlines ProofParas ProofTags ProofSections ProofBlocks ProofStateEx SpecDoc ProofDocument SpecText ProofText ProofWeave ProofSpan ProofSpanRe ProofSpanText SpecSpans ProofSpanDoc ProofSpanPage
  SpecSigned ProofSigned ProofSignedDoc ProofSignedPage ProofSignedEnd ProofSignedTop ProofPages ProofItems SpecCode ProofCode SpecLinked ProofLinkAuto ProofStock ProofStockDoc ProofCodeDoc ProofCodePage ProofLinked.
#[local] Arguments u : simpl never.


(** ** Quotes before links are no quotation marks *)
Lemma mapM_same f s : forall l, (forall h, In (Hit h) l -> f h s = Ret (h_text h) s) -> mapM (replace_segM f) l s = Ret (map seg_text l) s.
Proof.
  induction l as [|g l IH]; intros H; [reflexivity|]. cbn [mapM map]. unfold bind at 1. assert (replace_segM f g s = Ret (seg_text g) s) as ->.
  { destruct g as [c|h]; [reflexivity|]. apply H. left. reflexivity. }
  unfold bind. rewrite IH by (intros h Hh; apply H; right; exact Hh). reflexivity.
Qed.
Lemma replace_same r f t s : (forall h, In (Hit h) (segs r t) -> f h s = Ret (h_text h) s) -> replace_allM r f t s = Ret t s.
Proof.
  intros H. unfold replace_allM, bind. rewrite mapM_same by exact H. unfold ret. rewrite <- flat_map_concat_map, segs_text. reflexivity.
Qed.
Definition quote_mid : re := match rx_re QUOTED_QUOTE_RE with RSeq _ (RSeq _ (RSeq a _)) => a | _ => REps end.
Definition quote_pre : re := match rx_re QUOTED_QUOTE_RE with RSeq _ (RSeq a _) => a | _ => REps end.
Lemma quoted_shape : rx_re QUOTED_QUOTE_RE = RSeq (RCls (ProofParse.one 32)) (RSeq quote_pre (RSeq quote_mid (RSeq (RGroup 3 (RCls no_nl)) (RCls (ProofParse.one 32))))). Proof. reflexivity. Qed.
Lemma quoted_post h : hit_of (rx_re QUOTED_QUOTE_RE) h -> exists w x, h_text h = w ++ [x; 32] /\ cap_text 3 (h_caps h) = Some [x].
Proof.
  intros (b & a & s & H & ->). apply match_at_sound in H. rewrite quoted_shape in H. apply mat_seq in H as (s1 & M1 & H). apply mat_seq in H as (s2 & M2 & H). apply mat_seq in H as (s3 & M3 & H). apply mat_seq in H as (s4 & M4 & M5).
  apply Mat_word in M1 as (w1 & [M1 _] & _). apply Mat_word in M2 as (w2 & [M2 _] & _). apply Mat_word in M3 as (w3 & [M3 _] & _). cbn [m_after] in M1.
  apply mat_group in M4 as (s' & M4 & ->). apply mat_cls in M4 as (x & rest & E & _ & ->). apply mat_cls in M5 as (y & rest' & E' & Hy & ->). rewrite in_one in Hy. apply N.eqb_eq in Hy. subst y.
  unfold step in *. cbn [m_after m_caps m_before] in *. subst rest. exists (w1 ++ w2 ++ w3), x. unfold mk_hit_of. cbn [h_text h_caps m_after m_caps]. split.
  - rewrite M1, M2, M3, E. replace (w1 ++ w2 ++ w3 ++ x :: 32 :: rest') with (((w1 ++ w2 ++ w3) ++ [x; 32]) ++ rest') by (rewrite <- !app_assoc; reflexivity). apply cap_str_app.
  - unfold cap_text. cbn [find_cap Nat.eqb option_map]. rewrite E. f_equal. exact (cap_str_app [x] (32 :: rest')).
Qed.
Lemma matching_closer x c : opt_eqb x (matching_quote c) = true -> in_cls closers x = true.
Proof.
  unfold matching_quote. repeat match goal with |- context [if ?b then _ else _] => destruct b end; cbn [opt_eqb]; intros H; try discriminate; apply N.eqb_eq in H; subst x; reflexivity.
Qed.
Lemma quoted_quiet T t s : no_match (RSeq (RCls closers) (RCls blank)) t -> glyph_quoted_quote T t s = Ret t s.
Proof.
  intros H. unfold glyph_quoted_quote. apply replace_same. intros h Hh. pose proof (segs_hits _ _ _ Hh) as Ho. destruct (quoted_post h Ho) as (w & x & Et & E3). 
  destruct (hit_always _ _ 1%nat Ho eq_refl) as (p & E1). unfold f_glyph_quoted_quote, capx. rewrite E1, E3. cbn [of_opt]. unfold bind at 1. unfold ret at 1. unfold bind at 1. unfold ret at 1.
  destruct (hit_group _ _ _ _ Ho E1) as (a & Ha & Hw). destruct Ha as [<-|[]]. inversion Hw; subst. 
  destruct (opt_eqb x (matching_quote _)) eqn:Eq; [|reflexivity]. exfalso. apply matching_closer in Eq.
  pose proof (segs_text (rx_re QUOTED_QUOTE_RE) t) as Es. apply in_split in Hh as (l1 & l2 & Hh). rewrite Hh, flat_map_app in Es. cbn [flat_map seg_text] in Es. rewrite Et in Es.
  specialize (H (flat_map seg_text l1 ++ w) (x :: 32 :: flat_map seg_text l2)). assert (t = (flat_map seg_text l1 ++ w) ++ x :: 32 :: flat_map seg_text l2) as E by (rewrite <- Es; rewrite <- !app_assoc; reflexivity).
  specialize (H E). unfold match_at in H. rewrite m_seq, m_cls, Eq, m_cls in H. discriminate.
Qed.

(** ** Reading *)
Section Doc.
Variables (W : world) (T : textile).
Hypothesis uid_simple : simple_uid (t_uid T).
Notation tok n := (fragment_token T n).
Notation br := (br_tag T).
Notation fb := (final_br T).
Notation stage_text := (stage_text T).
Definition source_text (l : list quad) : str := flat_map quoted (map triple_of l).
Lemma link_source p : linked_text p = fst p ++ source_text (snd p).
Proof.
  destruct p as [a l]. unfold linked_text, source_text. cbn [fst snd]. f_equal. induction l as [|[[k y] t] l IH]; [reflexivity|]. cbn [flat_map map fst snd]. rewrite IH. f_equal.
  unfold link_text, quoted, triple_of. cbn [fst snd]. change (u """:") with [34; 58]. change (u """") with [34]. rewrite <- !app_assoc. cbn [app]. rewrite <- ?app_assoc. reflexivity.
Qed.
Lemma written_around : incl around_code (au_trans written_link) /\ incl (20 :: 21 :: au_final paragraph)%nat (au_final written_link) /\ au_start written_link = 0%nat.
Proof. split; [|split; [apply incl_refl|reflexivity]]. unfold written_link. cbn [au_trans]. apply incl_here. Qed.
Lemma label_reads x rest : forall q, Suf label q x -> Suf written_link 42 rest -> Suf written_link (q + 100) (x ++ 34 :: rest).
Proof.
  intros q H Hr. induction H as [q Hq|q k q' c x Ht Hc Hs IH].
  - eapply SufCons with (l := ch 34) (q' := 42%nat); [|reflexivity|exact Hr]. unfold written_link. cbn [au_trans]. do 3 apply in_or_app, or_intror. apply in_or_app. left. apply in_flat_map. exists (q + 100)%nat. split; [|left; reflexivity].
    unfold label in Hq. cbn [au_final In] in Hq. cbn [In]. intuition (subst; auto 10).
  - cbn [app]. eapply SufCons with (l := k) (q' := (q' + 100)%nat); [|exact Hc|exact IH]. unfold written_link. cbn [au_trans]. do 2 apply in_or_app, or_intror. apply in_or_app. left.
    apply in_map_iff. exists (q, k, q'). split; [reflexivity|exact Ht].
Qed.
Lemma url_reads v rest : written_url v -> Suf written_link 20 rest -> Suf written_link 43 (v ++ rest).
Proof.
  intros (a & c & -> & Hc & Ha) Hr. rewrite <- app_assoc. assert (forall tr, In tr [(42, ch 58, 43); (43, one_of url_chars, 43); (43, one_of url_last, 20)]%nat -> In tr (au_trans written_link)) as Q
    by (intros tr Htr; unfold written_link; cbn [au_trans]; do 4 apply in_or_app, or_intror; exact Htr).
  eapply loop_ok; [apply Q; right; left; reflexivity|apply forallb_forall; intros d Hd; apply in_one_of; auto|]. cbn [app].
  eapply SufCons with (q' := 20%nat); [apply Q; right; right; left; reflexivity|apply in_one_of; exact Hc|exact Hr].
Qed.
Lemma link_reads k t q : In q [0; 1; 8]%nat -> accepts label (ln_label k) -> written_url (ln_url k) -> Suf written_link 20 t -> Suf written_link q (quoted (ln_label k, ln_url k, t)).
Proof.
  intros Hq Hl Hu Ht. unfold quoted. cbn [fst snd]. eapply SufCons with (l := ch 34) (q' := 101%nat); [|reflexivity|].
  { unfold written_link. cbn [au_trans]. apply in_or_app, or_intror, in_or_app. left. cbn [In] in *. intuition (subst; auto). }
  apply (label_reads _ _ 1%nat); [exact Hl|]. eapply SufCons with (l := ch 58) (q' := 43%nat); [|reflexivity|apply url_reads; assumption].
  unfold written_link. cbn [au_trans]. do 4 apply in_or_app, or_intror. left. reflexivity.
Qed.
Definition lshape (a : str) (l : list quad) : Prop := (l = [] /\ accepts paragraph a) \/ (l <> [] /\ accepts before_code a /\ links_follow W T l).
Lemma follows_cons k y t l : links_follow W T ((k, y, t) :: l) -> link_ok T k /\ target_of W T (ln_url k) y /\ (accepts between_code t \/ accepts after_code t) /\ (l <> [] -> accepts between_code t) /\ (l = [] -> accepts after_code t) /\ links_follow W T l.
Proof. cbn [links_follow]. intros (H1 & H2 & H3 & H4). split; [exact H1|]. split; [exact H2|]. destruct l as [|q l]; repeat split; auto; try congruence. Qed.
Lemma linked_shape p : linked_ok W T p -> lshape (fst p) (snd p).
Proof. destruct p as [a [|q l]]; unfold linked_ok; cbn [fst snd]; intros H; [left; auto|right]. destruct H as [H1 H2]. split; [discriminate|]. split; [exact H1|exact H2]. Qed.
Lemma quoted_app x v t r : quoted (x, v, t) ++ r = quoted (x, v, t ++ r).
Proof. unfold quoted. cbn [fst snd app]. rewrite <- !app_assoc. cbn [app]. rewrite <- !app_assoc. reflexivity. Qed.
Lemma source_reads_l l : forall q, In q [0; 1; 8]%nat -> l <> [] -> links_follow W T l -> Suf written_link q (source_text l).
Proof.
  destruct written_around as (I1 & I2 & _). induction l as [|[[k y] t] l IH]; intros q Hq Hn Hl; [congruence|]. apply follows_cons in Hl as ((Hk & _ & Hv & _) & _ & _ & Hm & He & Hl).
  unfold source_text. cbn [map flat_map]. fold (source_text l). unfold triple_of at 1. cbn [fst snd]. rewrite quoted_app. apply link_reads; auto. destruct l as [|p l].
  - apply (ProofParas.tail_ok after_code); [apply He; reflexivity|exact I1|]. intros g Hg. constructor. apply I2. exact Hg.
  - apply (ProofParas.tail_ok between_code); [apply Hm; discriminate|exact I1|]. intros g Hg. apply IH; auto; [|discriminate]. unfold between_code in Hg. cbn [au_final In] in *. tauto.
Qed.
Lemma source_accepts_l a l : lshape a l -> accepts written_link (a ++ source_text l).
Proof.
  destruct written_around as (I1 & I2 & I3). intros [[-> H]|(Hn & Ha & Hl)].
  - unfold accepts. rewrite I3. apply (ProofParas.tail_ok paragraph); [exact H| |].
    + intros x Hx. apply I1. unfold around_code. apply in_or_app. left. exact Hx.
    + intros g Hg. constructor. apply I2. right. right. exact Hg.
  - unfold accepts. rewrite I3. apply (ProofParas.tail_ok before_code); [exact Ha|exact I1|]. intros g Hg. apply source_reads_l; auto.
Qed.
Lemma stage_reads_l l : forall n q, In q [0; 1; 8]%nat -> l <> [] -> links_follow W T l -> Suf shelved_code q (stage_text n l).
Proof.
  destruct (around_in shelved_code) as (I1 & I2 & _); auto.
  induction l as [|[[k y] t] l IH]; intros n q Hq Hn Hl; [congruence|]. apply follows_cons in Hl as (_ & _ & _ & Hm & He & Hl). cbn [ProofLinked.stage_text]. apply tok_item; auto. destruct l as [|p l].
  - apply (ProofParas.tail_ok after_code); [apply He; reflexivity|exact I1|]. intros g Hg. constructor. apply I2. exact Hg.
  - apply (ProofParas.tail_ok between_code); [apply Hm; discriminate|exact I1|]. intros g Hg. apply IH; auto; [|discriminate]. unfold between_code in Hg. cbn [au_final In] in *. tauto.
Qed.
Lemma stage_accepts_l a l n : lshape a l -> accepts shelved_code (a ++ stage_text n l).
Proof.
  intros [[-> H]|(Hn & Ha & Hl)]; [cbn [ProofLinked.stage_text]; rewrite app_nil_r; apply paragraph_in; auto|].
  destruct (around_in shelved_code) as (I1 & _ & I3); auto. unfold accepts. rewrite I3. apply (ProofParas.tail_ok before_code); [exact Ha|exact I1|]. intros g Hg. apply stage_reads_l; auto.
Qed.

(** ** Links as the parser sees them *)
Lemma label_quiet x : accepts label x -> quiet T x.
Proof.
  intros H. destruct (fam_tailed label x H) as [H1 H2].
  assert (forall r, In r label_re -> no_match r x) as Sm by (intros r Hr; eapply never_in; [exact label_small|exact H|exact Hr]).
  constructor.
  - intros r Hr. assert (In r (stage_rx false false)) as Hr'.
    { unfold stage_rx in *. rewrite !in_app_iff in *. destruct Hr as [Hr|[Hr|Hr]]; [|destruct (t_noimage T); [destruct Hr|]; right; left; exact Hr|right; right; exact Hr]. destruct (t_lite T); [destruct Hr|left; exact Hr]. }
    split; [|intros _]; (eapply never_rx; [exact label_stage| |exact Hr']; assumption).
  - intros r Hr. eapply never_rx; [exact label_glyph|exact H|exact Hr].
  - split; apply no_match_ch, Sm; unfold label_re; apply in_or_app; left; apply in_map_iff; eexists; (split; [reflexivity|]); vm_compute; tauto.
  - unfold needle. destruct uid_simple as (id & -> & _). destruct (contains _ x) eqn:E; auto. apply contains_split in E as (a & b & ->).
    assert (contains (u ":link" ++ 83 :: u "tartMarker:") ((a ++ u "textileRef:" ++ id) ++ (u ":link" ++ 83 :: u "tartMarker:") ++ b) = true) as F by apply contains_mid.
    rewrite (no_contains (u ":link") (ch 83) 83) in F; [discriminate| |reflexivity].
    assert ((a ++ u "textileRef:" ++ id) ++ (u ":link" ++ 83 :: u "tartMarker:") ++ b = a ++ ((u "textileRef:" ++ id ++ u ":") ++ u "linkStartMarker:") ++ b) as -> by (rewrite <- !app_assoc; reflexivity).
    apply Sm. unfold label_re. apply in_or_app. right. cbn [In]. tauto.
  - apply no_end_newline, Sm. unfold label_re. apply in_or_app. right. cbn [In]. tauto.
Qed.

Definition tail_res : list re := [RCls (ch 34); RCls (ch 91); RSeq (RAssert SOT) (RSeq (RCls after_fragment) (RCls (mk_cls true (c_items space_cls))))].
Lemma tail_facts t : accepts between_code t \/ accepts after_code t -> forall r, In r tail_res -> no_match r t.
Proof.
  assert (forallb (fun A => forallb (never A) tail_res) [between_code; after_code] = true) as F by (vm_compute; reflexivity).
  rewrite forallb_forall in F. intros [H|H] r Hr; (eapply never_in; [|exact H|exact Hr]); apply F; cbn [In]; tauto.
Qed.
Lemma tail_split t : accepts between_code t \/ accepts after_code t -> exists pop t', t = pop ++ t' /\ forallb stop_punct pop = true /\ match t' with [] => True | c :: _ => is_ws c = true end.
Proof.
  intros H. destruct (starts_after t H) as [->|(c & r & -> & Hc)]; [exists [], []; auto|]. change (In c [32; 44; 59; 33; 46; 63; 10]) in Hc.
  destruct (is_ws c) eqn:Ew; [exists [], (c :: r); auto|]. assert (in_cls after_fragment c = true /\ stop_punct c = true) as [Ha Hp].
  { cbn [In] in Hc. repeat destruct Hc as [<-|Hc]; try discriminate Ew; try (split; reflexivity). destruct Hc. }
  exists [c], r. split; [reflexivity|]. split; [cbn [forallb]; rewrite Hp; reflexivity|]. destruct r as [|d r]; [exact I|].
  assert (no_match (RSeq (RAssert SOT) (RSeq (RCls after_fragment) (RCls (mk_cls true (c_items space_cls))))) (c :: d :: r)) as N by (apply tail_facts; [exact H|]; right; right; left; reflexivity).
  specialize (N [] (c :: d :: r) eq_refl). unfold match_at in N. rewrite m_seq, m_assert in N. cbn [assert_holds is_empty rev m_before] in N. rewrite m_seq, m_cls, Ha, m_cls in N.
  destruct (is_ws d) eqn:Ed; [reflexivity|]. exfalso. unfold in_cls, space_cls in N. cbn [c_neg c_items existsb in_item has_prop] in N. rewrite Ed in N. discriminate.
Qed.
Lemma piece_free A t : A = before_code \/ A = between_code \/ A = after_code -> accepts A t -> uid_free T t.
Proof. intros HA H. apply lead_absent; [exact uid_simple|]. eapply around_pieces; eauto. Qed.
Lemma tail_free t : accepts between_code t \/ accepts after_code t -> uid_free T t.
Proof. intros [H|H]; [apply (piece_free between_code)|apply (piece_free after_code)]; auto. Qed.
Lemma label_has x : accepts label x -> forall r, In r label_re -> no_match r x.
Proof. intros H r Hr. eapply never_in; [exact label_small|exact H|exact Hr]. Qed.
Lemma label_char x c : accepts label x -> In c label_chars -> ~ In c x.
Proof. intros H Hc. apply no_match_ch, (label_has x H). unfold label_re. apply in_or_app. left. apply in_map_iff. exists c. auto. Qed.
Lemma label_free x : accepts label x -> uid_free T x.
Proof. intros H. apply lead_absent; [exact uid_simple|]. eapply never_ok; [exact H|]. vm_compute. reflexivity. Qed.
Lemma label_ends x : accepts label x -> exists c r, x = c :: r /\ is_ws c = false.
Proof.
  intros H. destruct x as [|c r]; [inversion H as [q Hf|]; subst; cbn in Hf; intuition discriminate|]. exists c, r. split; [reflexivity|].
  pose proof (no_start_cls space_cls c r) as F. rewrite <- F; [|apply (label_has _ H); unfold label_re; apply in_or_app; right; cbn [In]; tauto].
  unfold in_cls, space_cls. cbn [c_neg c_items existsb in_item has_prop]. destruct (is_ws c); reflexivity.
Qed.
Lemma link_fits k t : link_ok T k -> accepts between_code t \/ accepts after_code t -> fit_link T (ln_label k) (ln_url k) t.
Proof.
  intros (Hl & H10 & Hv & Hu) Ht. constructor.
  - destruct (label_ends _ Hl) as (c & r & E & Hc). exists c, r. split; [exact E|]. split; [exact Hc|]. intros F.
    assert (in_cls (one_of (u "!:")) c = false) as N.
    { apply no_start_cls with (t := r). rewrite <- E. apply (label_has _ Hl). unfold label_re. apply in_or_app. right. cbn [In]. tauto. }
    assert (forall d, In d [40; 91; 123] -> c <> d) as N2. { intros d Hd ->. apply (label_char _ d Hl); [change label_chars with [34; 40; 91; 123; 41; 93; 125; 60; 62; 36; 38; 124; 94; 42; 64; 61]; cbn [In] in *; tauto|]. rewrite E. left. reflexivity. }
    cbn [In] in F. destruct F as [F|[F|[F|[F|[F|[]]]]]]; [apply (N2 40); cbn [In]; auto|apply (N2 91); cbn [In]; auto|apply (N2 123); cbn [In]; auto| |]; subst c; discriminate N.
  - apply (label_char _ 34 Hl). vm_compute. tauto.
  - apply (label_char _ 40 Hl). vm_compute. tauto.
  - exact H10.
  - destruct (label_ends _ Hl) as (c & r & E & Hc). unfold trim, trim_by. rewrite trim_start_by_id by (rewrite E; exact Hc). apply trim_end_by_id. intros w d Ew.
    assert (no_match (RSeq (RCls space_cls) (RAssert EOT)) (ln_label k)) as N by (apply (label_has _ Hl); unfold label_re; apply in_or_app; right; cbn [In]; tauto).
    specialize (N w [d] Ew). unfold match_at in N. rewrite m_seq, m_cls in N. destruct (is_ws d) eqn:Ed; [|reflexivity]. exfalso. 
    assert (in_cls space_cls d = true) as E' by (unfold in_cls, space_cls; cbn [c_neg c_items existsb in_item has_prop]; rewrite Ed; reflexivity). rewrite E', m_assert in N. cbn [assert_holds is_empty] in N. discriminate.
  - intros E. apply (label_char _ 36 Hl); [vm_compute; tauto|]. rewrite E. left. reflexivity.
  - apply label_quiet. exact Hl.
  - exact Hv.
  - apply tail_split. exact Ht.
  - split; apply no_match_ch; apply tail_facts; auto; cbn [In tail_res]; tauto.
  - split; [|apply tail_free; exact Ht]. unfold uid_free. destruct (contains (t_uid T) (ln_url k)) eqn:E; [|reflexivity]. apply contains_split in E as (a & b & E). exfalso. apply (Hu a b). exact E.
Qed.
Lemma links_fit l : links_follow W T l -> (forall q, In q l -> fit4 W T q) /\ joined l.
Proof.
  induction l as [|[[k y] t] l IH]; intros H; [split; [intros q []|exact I]|]. apply follows_cons in H as (Hk & Hy & Ht & Hm & He & Hl). destruct (IH Hl) as [I1 I2]. split.
  - intros q [<-|Hq]; [|auto]. split; [apply link_fits; auto|exact Hy].
  - destruct l as [|p l]; [exact I|]. split; [apply ends_between, Hm; discriminate|exact I2].
Qed.
Lemma shape_head a l : lshape a l -> l <> [] -> ~ In 34 a /\ ~ In 91 a /\ uid_free T a /\ (a = [] \/ closes a) /\ (forall q, In q l -> fit4 W T q) /\ joined l.
Proof.
  intros [[-> _]|(_ & Ha & Hl)] Hn; [congruence|]. assert (forall r, In r [RCls (ch 34); RCls (ch 91)] -> no_match r a) as N.
  { intros r Hr. eapply never_in; [|exact Ha|exact Hr]. vm_compute. reflexivity. }
  destruct (links_fit l Hl) as [F1 F2]. split; [apply no_match_ch, N; cbn [In]; tauto|]. split; [apply no_match_ch, N; cbn [In]; tauto|]. split; [apply (piece_free before_code); auto|]. split; [apply ends_before; exact Ha|]. split; assumption.
Qed.

(** ** The inline stages *)
Definition after_images (g : str -> M str) (text : str) : M str :=
  text <- (if t_lite T then ret text else table T g text) ;;
  text <- (if t_lite T then ret text else redcloth_list T g text) ;;
  text <- (if t_lite T then ret text else textile_lists T text) ;;
  text <- span T text ;;
  text <- footnote_ref T text ;;
  text <- note_ref T text ;;
  text <- glyphs T text ;;
  ret (trim_end_matches 10 text).
Definition after_links (g : str -> M str) (text : str) : M str :=
  text <- (if t_noimage T then ret text else image W T text) ;; after_images g text.
Lemma images_quiet g t : quiet T t -> leaves T (after_images g t) t.
Proof.
  intros Hi. pose proof Hi as [H1 H2 H3 H4 H5]. unfold after_images.
  assert (exists t2, (t2 = t \/ (t_lite T = false /\ t2 = t ++ nl ++ nl)) /\ t2 = (if t_lite T then t else t ++ nl ++ nl)) as (t2 & Ht2 & E2) by (destruct (t_lite T); eauto).
  assert (forall r, In r (stage_rx (t_lite T) (t_noimage T)) -> no_match (rx_re r) t2) as L3.
  { intros r Hr. destruct Ht2 as [-> |[El ->]]; apply H1; auto. }
  assert (trim_end_matches 10 t2 = t) as E3 by (destruct Ht2 as [-> |[_ ->]]; rewrite ?trim_end_snoc; auto).
  eapply leaves_bind with (x := t2).
  { rewrite E2. destruct (t_lite T) eqn:El; [apply leaves_ret|]. unfold table. rewrite captures_no_match; [apply leaves_ret|]. apply H1; auto. apply stage_in; cbn [In]; tauto. }
  eapply leaves_bind with (x := t2). { apply leaves_if; intros El; [apply leaves_ret|]. apply leaves_replace, L3, stage_in. cbn [In]; tauto. }
  eapply leaves_bind with (x := t2). { apply leaves_if; intros El; [apply leaves_ret|]. apply leaves_replace, L3, stage_in. cbn [In]; tauto. }
  eapply leaves_bind with (x := t2). { apply leaves_pure. apply span_inert. intros r Hr. apply L3, stage_in. auto. }
  eapply leaves_bind with (x := t2). { apply leaves_replace, L3, stage_in. cbn [In]; tauto. }
  eapply leaves_bind with (x := t2). { apply leaves_replace, L3, stage_in. cbn [In]; tauto. }
  eapply leaves_bind with (x := t).
  { apply leaves_pure. intros s. unfold glyphs. rewrite E3. pose proof (glyphs_quiet T t Hi s) as G. unfold glyphs in G. rewrite H5 in G. exact G. }
  rewrite H5. apply leaves_ret.
Qed.
Lemma links_quiet g t : quiet T t -> leaves T (after_links g t) t.
Proof.
  intros Hi. unfold after_links. eapply leaves_bind with (x := t); [|apply images_quiet; exact Hi].
  apply leaves_if; intros El; [apply leaves_ret|]. apply leaves_replace, (q_inline T t Hi), stage_in. tauto.
Qed.
Lemma early_stages fuel g t s : (forall r, In r early_rx -> no_match (rx_re r) t) -> no_match (RSeq (RCls closers) (RCls blank)) t ->
  graf_body W T fuel g t s = bind (links W T fuel t) (after_links g) s.
Proof.
  intros N Nq. unfold graf_body. 
  assert ((if t_lite T then ret t else no_textile T t) s = Ret t s) as E by (destruct (t_lite T); [reflexivity|]; unfold no_textile, bind; rewrite !no_match_replaceM by (apply N; cbn [In early_rx]; tauto); reflexivity).
  unfold bind at 1. rewrite E. clear E.
  assert ((if t_lite T then ret t else code T t) s = Ret t s) as E by (destruct (t_lite T); [reflexivity|]; unfold code, bind; rewrite !no_match_replaceM by (apply N; cbn [In early_rx]; tauto); reflexivity).
  unfold bind at 1. rewrite E. clear E.
  assert (get_html_comments T t s = Ret t s) as E by (apply no_match_replaceM, N; cbn [In early_rx]; tauto). unfold bind at 1. rewrite E. clear E.
  assert (get_refs T t s = Ret t s) as E by (unfold get_refs; destruct (t_restricted T); apply no_match_replaceM, N; cbn [In early_rx]; tauto). unfold bind at 1. rewrite E. clear E.
  unfold bind at 1. rewrite quoted_quiet by exact Nq. reflexivity.
Qed.
Hypothesis Hrel : rel_ok T.
Lemma graf_links fuel n a l s : (1 < fuel)%nat -> lshape a l -> @cache_ok (own T) (ps_cache s) -> ps_borrowed s = false ->
  exists c, @cache_ok (own T) c /\ graf_n W T fuel (S n) (a ++ source_text l) s = Ret (a ++ stage_text (ps_ref_index s) l) (stocks T (stage_kept T (ps_ref_index s) l) (set_cache c s)).
Proof.
  intros Hf H Hc Hb. set (t := a ++ source_text l). set (t2 := a ++ stage_text (ps_ref_index s) l).
  assert (quiet T t2) as Q by (apply (shelved_quiet T uid_simple); apply stage_accepts_l; exact H).
  assert (l = [] \/ l <> []) as [->|Hn] by (destruct l; [left; reflexivity|right; discriminate]).
  { destruct (graf_quiet W T (uid_simple_plain _ uid_simple) fuel n t2 ltac:(lia) Q s Hc Hb) as (c & Hc2 & E). exists c. split; [exact Hc2|]. exact E. }
  pose proof (source_accepts_l a l H) as HA. fold t in HA.
  destruct (shape_head a l H Hn) as (A1 & A2 & A3 & A4 & A5 & A6).
  destruct (links_ok W T uid_simple Hrel fuel a l s Hf A1 A2 A3 A4 Hn A5 A6 (q_needle T t2 Q) Hc Hb) as (c1 & Hc1 & E1). fold (source_text l) in E1. fold t t2 in E1.
  set (s1 := stocks T (stage_kept T (ps_ref_index s) l) (set_cache c1 s)) in *. destruct (stocks_own T (stage_kept T (ps_ref_index s) l) (set_cache c1 s)) as (P1 & P2 & _ & _ & _ & P6). fold s1 in P1, P2, P6.
  destruct (links_quiet (graf_n W T fuel n) t2 Q s1) as (c & Hc2 & E).
  { rewrite P1. exact Hc1. } { rewrite P2. exact Hb. }
  exists c. split; [exact Hc2|]. cbn [graf_n]. rewrite early_stages.
  - unfold bind. rewrite E1, E. f_equal. unfold s1. rewrite <- P6. reflexivity.
  - intros r Hr. eapply never_rx; [exact written_link_rx|exact HA|exact Hr].
  - eapply never_in; [exact written_link_small|exact HA|cbn [In early_small]; tauto].
Qed.

(** ** The links come back *)
Section Shelf.
Variables (shelf : list (str * str)) (urls : list (N * str)).
Notation comes := (comes T shelf urls).
Lemma cm_first w x y : ends_cut w -> uid_free T w -> comes x y -> comes (w ++ x) (w ++ y).
Proof. intros (v & e & -> & He) Hw H. rewrite <- !app_assoc. cbn [app]. apply (free_cut T uid_simple e v []) in Hw as [Hv _]; auto. apply cm_cut; auto. apply cm_plain. exact Hv. Qed.
Lemma cm_hedge w x y x' y' : starts_cut w -> ends_cut w -> uid_free T w -> comes x y -> comes x' y' -> comes (x ++ w ++ x') (y ++ w ++ y').
Proof.
  intros (d & r & -> & Hd & _) (v & e & E & He) Hw H H'. destruct v as [|d' v].
  - injection E as <- ->. cbn [app]. apply cm_cut; auto.
  - injection E as <- ->. cbn [app]. rewrite <- !app_assoc. cbn [app]. apply cm_cut; auto. apply (free_cut T uid_simple d []) in Hw as [_ Hw]; auto. apply (free_cut T uid_simple e v []) in Hw as [Hv _]; auto. apply cm_cut; auto. apply cm_plain. exact Hv.
Qed.
Lemma cm_last w x y : w = [] \/ starts_cut w -> uid_free T w -> comes x y -> comes (x ++ w) (y ++ w).
Proof.
  intros [->|(d & r & -> & Hd & _)] Hw H; [rewrite !app_nil_r; exact H|]. apply (free_cut T uid_simple d []) in Hw as [_ Hw]; auto. apply cm_cut; auto. apply cm_plain. exact Hw.
Qed.
End Shelf.
Lemma rel_chars c : In c (rel_text T) -> In c (u "abcdefghijklmnopqrstuvwxyzABCDEFGHIJKLMNOPQRSTUVWXYZ0123456789 -""=").
Proof.
  unfold rel_text. destruct (t_rel T) as [r|] eqn:E; [|intros []]. intros H. apply in_app_or in H as [H|H].
  - change (u " rel=""") with [32; 114; 101; 108; 61; 34] in H. cbn [In] in H. repeat destruct H as [<-|H]; try (vm_compute; tauto).
  - apply in_app_or in H as [H|H].
    + apply (Hrel r E) in H. change (u "abcdefghijklmnopqrstuvwxyzABCDEFGHIJKLMNOPQRSTUVWXYZ0123456789 -""=") with (u "abcdefghijklmnopqrstuvwxyzABCDEFGHIJKLMNOPQRSTUVWXYZ0123456789 -" ++ [34; 61]). apply in_or_app. left. exact H.
    + change (u """") with [34] in H. cbn [In] in H. destruct H as [<-|[]]. vm_compute. tauto.
Qed.
Lemma rel_without d : forallb (fun c => negb (c =? d)) (u "abcdefghijklmnopqrstuvwxyzABCDEFGHIJKLMNOPQRSTUVWXYZ0123456789 -""=") = true -> ~ In d (rel_text T).
Proof. intros H F. apply rel_chars in F. rewrite forallb_forall in H. apply H in F. rewrite N.eqb_refl in F. discriminate. Qed.
Lemma anchor_back urls i y x : accepts label x -> assocN i urls = Some (entities true y) -> i <= u32_max -> urled T urls (anchor T i x) (link_html T y x).
Proof.
  intros Hx Hi Hm. unfold anchor, link_html. change (u "<a href=""") with (u "<a href=" ++ [34]). change (u """") with [34]. rewrite <- !app_assoc. cbn [app]. apply ur_url; auto.
  - apply uid_no_colon; auto. vm_compute. intuition discriminate.
  - apply ur_plain. change (u ">") with [62]. change (u "</a>") with (60 :: u "/a>"). cbn [app]. apply (free_glue T uid_simple); [apply cutter_62|apply uid_no_colon; auto; apply rel_without; reflexivity|].
    apply (free_glue T uid_simple); [apply cutter_60|apply label_free; exact Hx|]. apply uid_no_colon; auto. vm_compute. intuition discriminate.
Qed.
Definition linked_body (x : str) (l : list quad) : str := flat_map (fun q => link_html T (snd (fst q)) (ln_label (fst (fst q))) ++ breaks x (snd q)) l.
Lemma links_back shelf urls l : forall n, links_follow W T l -> incl (shelf_at T n (stage_kept T n l)) shelf -> served urls (urls_at n (stage_kept T n l)) -> comes T shelf urls (breaks br (stage_text n l)) (linked_body br l).
Proof.
  assert (forall i, breaks br (tok i) = tok i) as B by (intros i; apply breaks_one_line, (tok_without T uid_simple); reflexivity).
  induction l as [|[[k y] t] l IH]; intros n Hl Hn Hm; [apply comes_nil; auto|]. apply follows_cons in Hl as ((Hk & _) & _ & Ht & Hb & He & Hl').
  cbn [ProofLinked.stage_text stage_kept kept_of app shelf_at urls_at] in *. replace (n + 1 + 1) with (n + 2) in * by lia.
  assert (comes T shelf urls (tok (n + 2)) (link_html T y (ln_label k))) as C.
  { apply (cm_tok T shelf urls (n + 2) (anchor T (n + 1) (ln_label k))); [apply Hn; left; reflexivity|]. destruct (Hm (n + 1) (entities true y) (or_introl eq_refl)). apply anchor_back; auto. }
  assert (comes T shelf urls (breaks br (stage_text (n + 2) l)) (linked_body br l)) as R.
  { apply IH; auto; [intros z Hz; apply Hn; right; exact Hz|intros i h Hi; apply Hm; right; exact Hi]. }
  rewrite !breaks_app, B. unfold linked_body. cbn [flat_map fst snd]. fold (linked_body br l). rewrite <- app_assoc.
  assert (uid_free T (breaks br t)) as Hu by (destruct Ht as [Ht|Ht]; [eapply (text_free T uid_simple between_code)|eapply (text_free T uid_simple after_code)]; auto).
  destruct l as [|p l].
  - cbn [ProofLinked.stage_text]. change (breaks br []) with (@nil N). change (linked_body br []) with (@nil N). rewrite !app_nil_r. apply cm_last; auto; destruct (starts_breaks T t Ht) as [->|]; auto.
  - assert (accepts between_code t) as Ht' by (apply Hb; discriminate). apply cm_hedge; auto; [|apply ends_breaks, ends_between, Ht'].
    destruct (starts_breaks T t Ht) as [->|]; auto. apply ends_between in Ht' as (v & d & F & _). destruct v; discriminate.
Qed.
Lemma links_back_all shelf urls a l n : lshape a l -> incl (shelf_at T n (stage_kept T n l)) shelf -> served urls (urls_at n (stage_kept T n l)) -> comes T shelf urls (breaks br (a ++ stage_text n l)) (breaks br a ++ linked_body br l).
Proof.
  intros [[-> H]|(Hn & Ha & Hl)] Hs Hu.
  - cbn [ProofLinked.stage_text]. rewrite app_nil_r. change (linked_body br []) with (@nil N). rewrite app_nil_r. apply cm_plain. apply uid_breaks; [exact uid_simple|left; apply br_is|]. apply lead_absent; [exact uid_simple|]. eapply never_ok; [exact H|]. vm_compute. reflexivity.
  - rewrite breaks_app. pose proof (links_back shelf urls l n Hl Hs Hu) as R. destruct (ends_before a Ha) as [->|Hc]; [exact R|]. apply cm_first; [apply ends_breaks; exact Hc|eapply (text_free T uid_simple before_code); auto|exact R].
Qed.
(** ** Line breaks *)
Lemma label_60 x : accepts label x -> ~ In 60 x.
Proof. intros H. apply (label_char x 60 H). vm_compute. tauto. Qed.
Lemma links_brs l v w : links_follow W T l -> brs br fb (60 :: v) (60 :: w) -> exists r r', linked_body br l ++ 60 :: v = 60 :: r /\ linked_body fb l ++ 60 :: w = 60 :: r' /\ brs br fb (60 :: r) (60 :: r').
Proof.
  intros Hl H. induction l as [|[[k y] t] l IH]; [exists v, w; auto|]. apply follows_cons in Hl as ((Hk & _) & _ & Ht & _ & _ & Hl). destruct (IH Hl) as (r & r' & E1 & E2 & R).
  assert (~ In 60 t) as H60 by (destruct Ht as [Ht|Ht]; [eapply (around_pieces between_code)|eapply (around_pieces after_code)]; eauto).
  pose proof (breaks_brs br fb 60 r r' t H60 ltac:(discriminate) (br_is T) R) as R2.
  unfold linked_body. cbn [flat_map fst snd]. fold (linked_body br l) (linked_body fb l). rewrite <- !app_assoc, E1, E2. unfold link_html.
  change (u "<a href=""") with (60 :: [97; 32] ++ u "href="""). change (u "</a>") with (60 :: [47; 97; 62]). 
  set (z := entities true y ++ u """" ++ rel_text T ++ u ">" ++ ln_label k). 
  assert (forall q, ((60 :: [97; 32] ++ u "href=""") ++ entities true y ++ u """" ++ rel_text T ++ u ">" ++ ln_label k ++ 60 :: [47; 97; 62]) ++ q = 60 :: ([97; 32] ++ u "href=""" ++ z) ++ 60 :: [47; 97; 62] ++ q) as Eq.
  { intros q. unfold z. rewrite <- !app_comm_cons. f_equal. repeat (rewrite <- app_assoc || rewrite <- app_comm_cons). reflexivity. }
  rewrite !Eq. eexists _, _. split; [reflexivity|]. split; [reflexivity|]. 
  apply brs_other; [cbn [app not_br]; intuition discriminate|]. apply brs_app.
  { intros F. apply in_app_or in F as [F|F]; [cbn [In] in F; intuition discriminate|]. apply in_app_or in F as [F|F]; [revert F; vm_compute; intuition discriminate|]. unfold z in F.
    apply in_app_or in F as [F|F]; [apply entities_60 in F; exact F|]. apply in_app_or in F as [F|F]; [revert F; vm_compute; intuition discriminate|]. apply in_app_or in F as [F|F]; [revert F; apply rel_without; reflexivity|].
    apply in_app_or in F as [F|F]; [revert F; vm_compute; intuition discriminate|]. apply (label_60 _ Hk F). }
  apply brs_other; [cbn [app not_br]; intuition discriminate|]. apply brs_app; [cbn [In]; intuition discriminate|]. exact R2.
Qed.
Lemma linked_brs a l v w : lshape a l -> brs br fb v w -> brs br fb (element (u "p") (breaks br a ++ linked_body br l) ++ v) (element (u "p") (breaks fb a ++ linked_body fb l) ++ w).
Proof.
  intros H Hvw. assert (~ In 60 a /\ links_follow W T l) as [H60 Hl].
  { destruct H as [[-> H]|(_ & H & Hl)]; [split; [|exact I]|split; [eapply (around_pieces before_code); eauto|exact Hl]]. apply no_match_ch. eapply never_ok; [exact H|]. vm_compute. reflexivity. }
  unfold element. rewrite <- !app_assoc.
  change (u "<" ++ u "p" ++ u ">" ++ ?z) with (60 :: [112; 62] ++ z). change (u "</" ++ u "p" ++ u ">" ++ ?z) with (60 :: [47; 112; 62] ++ z).
  assert (brs br fb (60 :: [47; 112; 62] ++ v) (60 :: [47; 112; 62] ++ w)) as R.
  { apply brs_other; [cbn [app not_br]; intuition discriminate|]. apply brs_app; auto. cbn [In]. intuition discriminate. }
  destruct (links_brs l _ _ Hl R) as (q & q' & E1 & E2 & Hq). rewrite E1, E2. apply brs_other; [cbn [app not_br]; intuition discriminate|]. apply brs_app; [cbn [In]; intuition discriminate|].
  apply breaks_brs; auto; [discriminate|]. apply br_is.
Qed.
(** ** Sources *)
Lemma uid_58 t : uid_free T t -> uid_free T (58 :: t).
Proof. unfold uid_free. intros H. destruct uid_simple as (id & E & _). cbn [contains]. rewrite H, E. change (u "textileRef:") with (116 :: u "extileRef:"). cbn [app starts_with]. reflexivity. Qed.
Lemma after_free v t r : uid_free T v -> accepts between_code t \/ accepts after_code t -> uid_free T (t ++ r) -> uid_free T (v ++ t ++ r) \/ t = [].
Proof.
  intros Hv Ht Hr. destruct (starts_after t Ht) as [->|(c & z & -> & Hc)]; [right; reflexivity|left]. cbn [app] in *.
  assert (cutter c) as Hcut. { assert (forallb (fun d => forallb (fun x => negb (x =? d)) uid_all && forallb (fun x => negb (x =? d)) (u "0123456789:shelve")) (u " ,;!.?" ++ [10]) = true) as F by (vm_compute; reflexivity). rewrite forallb_forall in F. apply F in Hc. apply andb_prop in Hc. exact Hc. }
  apply (free_glue T uid_simple); auto. apply (free_cut T uid_simple c []) in Hr; auto. apply Hr.
Qed.
Lemma source_free_l l : forall a, uid_free T a -> links_follow W T l -> uid_free T (a ++ source_text l).
Proof.
  assert (uid_free T []) as N0 by (apply uid_no_colon; auto).
  induction l as [|[[k y] t] l IH]; intros a Ha Hl; [unfold source_text; cbn [map flat_map]; rewrite app_nil_r; exact Ha|]. apply follows_cons in Hl as (Hk & _ & Ht & Hb & _ & Hl).
  destruct (k_free T _ _ _ (link_fits k t Hk Ht)) as [Hv Hf]. unfold source_text. cbn [map flat_map]. fold (source_text l). unfold triple_of at 1. cbn [fst snd]. rewrite quoted_app. unfold quoted. cbn [fst snd].
  apply (free_glue T uid_simple); [apply cutter_34|exact Ha|]. apply (free_glue T uid_simple); [apply cutter_34|apply label_free, Hk|]. apply uid_58.
  destruct (after_free (ln_url k) t (source_text l) Hv Ht (IH t Hf Hl)) as [R|E]; [exact R|]. subst t. destruct l as [|p l]; [unfold source_text; cbn [map flat_map app]; rewrite app_nil_r; exact Hv|].
  exfalso. assert (accepts between_code []) as F by (apply Hb; discriminate). apply ends_between in F as (v & d & F & _). destruct v; discriminate.
Qed.
Definition linked_stored (a : str) (l : list quad) : stored := mk_stored (a ++ source_text l) (fun n => a ++ stage_text n l) (fun n => stage_kept T n l) (fun x => breaks x a ++ linked_body x l).
Lemma linked_steady a l : lshape a l -> steady W T shelved_code (linked_stored a l).
Proof.
  intros H. pose proof (source_accepts_l a l H) as HA.
  assert (forall r, In r early_rx -> no_match (rx_re r) (a ++ source_text l)) as R by (intros r Hr; eapply never_rx; [exact written_link_rx|exact HA|exact Hr]).
  assert (forall r, In r early_small -> no_match r (a ++ source_text l)) as R2 by (intros r Hr; eapply never_in; [exact written_link_small|exact HA|exact Hr]).
  constructor; cbn [linked_stored d_source d_stage d_kept d_body].
  - apply firm_of; apply R2; cbn [In early_small]; tauto.
  - destruct H as [[-> H]|(_ & H & Hl)]; apply source_free_l; auto; [|exact I|apply (piece_free before_code); auto]. apply lead_absent; [exact uid_simple|]. eapply never_ok; [exact H|]. vm_compute. reflexivity.
  - destruct (t_lite T); apply R; cbn [In early_rx]; tauto.
  - apply R. cbn [In early_rx]. tauto.
  - apply R. cbn [In early_rx]. tauto.
  - destruct (a ++ source_text l) as [|c r] eqn:E.
    { exfalso. inversion HA as [q Hq E1 E2|]; subst. vm_compute in Hq. intuition discriminate. }
    exists c, r. split; [reflexivity|]. pose proof (no_start_cls space_cls c r) as F. rewrite <- F; [|apply R2; cbn [In early_small]; tauto].
    unfold in_cls, space_cls. cbn [c_neg c_items existsb in_item has_prop]. destruct (is_ws c); reflexivity.
  - intros fuel n s Hf Hc Hb. apply graf_links; auto.
  - intros n. apply stage_accepts_l; auto.
  - intros shelf urls n Hi Hu. apply links_back_all; auto.
  - intros v w Hvw. apply linked_brs; auto.
Qed.
End Doc.
