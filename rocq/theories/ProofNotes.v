(** Proofs about notes. *)
From Coq Require Import ZArith Permutation Sorted.
From Verif Require Import Str Unicode Regex RegexParse RegexSnips RegexTheory RegexGroups Lib ModelBase ModelHtml ModelUrl
  ModelAttrs ModelInline ModelParser SpecHtml ProofHtml ProofCharref SpecAttrs ProofAttrs Logic ProofWalk ProofState SpecParse SpecState
  ProofMemory ProofCache ProofSpan ProofStateEx SpecNotes ProofParse ProofLinks.
#[local] Arguments u : simpl never.

Lemma ret_inv {A} (a b : A) s s' : ret a s = Ret b s' -> a = b /\ s = s'.
Proof. unfold ret. intros H. inversion H. auto. Qed.

(** ** References *)
Lemma noteref_new T label s v s' : note_num label s = None -> noteref_op T label s = Ret v s' ->
  let refid := t_link_prefix T ++ dec (ps_link_index s + 1) in
  let id := t_link_prefix T ++ dec (ps_link_index s + 1 + 1) in
  v = (dec (ps_note_index s), refid, id) /\
  ps_notes s' = bt_insert label (mk_note id None None None (Some (dec (ps_note_index s))) [refid])
                  (bt_insert label (mk_note [] None None None (Some (dec (ps_note_index s))) []) (ps_notes s)).
Proof.
  unfold note_num. intros Hn. unfold noteref_op, bind at 1, get at 1. rewrite Hn. cbv zeta.
  unfold bind at 1 2, modify at 1, ret at 1. unfold bind at 1. rewrite new_id_eq. unfold bind at 1, get at 1.
  cbn [ps_notes set_notes set_note_index set_link_index]. rewrite assoc_bt. unfold bind at 1, of_opt, ret at 1.
  cbn [n_id is_empty]. unfold bind at 1. rewrite new_id_eq. unfold bind, modify, ret. cbn [n_content n_link n_attrs n_seq n_refids app].
  intros H. injection H as H1 H2. subst v s'. cbn [ps_notes set_notes set_note_index set_link_index ps_link_index]. auto.
Qed.
Lemma noteref_again T label a s v s' : assoc label (ps_notes s) = Some a -> n_seq a <> None -> n_id a <> [] -> noteref_op T label s = Ret v s' ->
  exists num, n_seq a = Some num /\ v = (num, t_link_prefix T ++ dec (ps_link_index s + 1), []) /\
  ps_notes s' = bt_insert label (mk_note (n_id a) (n_content a) (n_link a) (n_attrs a) (n_seq a)
                  (n_refids a ++ [t_link_prefix T ++ dec (ps_link_index s + 1)])) (ps_notes s).
Proof.
  intros Ha Hs Hi. unfold noteref_op, bind at 1, get at 1. rewrite Ha. destruct (n_seq a) as [num|] eqn:E; [|congruence].
  unfold bind at 1, ret at 1. unfold bind at 1. rewrite new_id_eq. unfold bind at 1, get at 1.
  cbn [ps_notes set_link_index]. rewrite Ha. unfold bind at 1, of_opt, ret at 1.
  destruct (n_id a) as [|c id] eqn:Ei; [congruence|]. cbn [is_empty]. unfold bind, modify, ret.
  intros H. injection H as H1 H2. subst v s'. rewrite E. cbn [ps_notes set_notes set_link_index]. eauto.
Qed.
Lemma bt_twice {A} k (a b : A) l : bt_insert k a (bt_insert k b l) = bt_insert k a l.
Proof.
  induction l as [|[k' v] l IH]; cbn [bt_insert]; [rewrite str_cmp_refl; reflexivity|].
  destruct (str_cmp k k') eqn:E; cbn [bt_insert]; rewrite ?str_cmp_refl, ?E, ?IH; reflexivity.
Qed.
Lemma id_nonempty T n : t_link_prefix T ++ dec n <> [].
Proof. intros H. apply app_eq_nil in H as [_ H]. destruct (dec_spec n) as [Hn _]. congruence. Qed.

(** ** What stays *)
Definition stay (P : note -> note -> Prop) (s s' : pstate) : Prop :=
  notes_have_ids s -> notes_have_ids s' /\ forall label a, note_referenced label a s -> exists b, assoc label (ps_notes s') = Some b /\ P a b.
Lemma stays_refl a : stays a a.
Proof. split; [auto|split; [auto|split; [exists []; rewrite app_nil_r; auto|auto]]]. Qed.
Lemma same_text_refl a : same_text a a.
Proof. split; [apply stays_refl|auto]. Qed.
Lemma stays_trans a b c : stays a b -> stays b c -> stays a c.
Proof.
  intros (H1 & H2 & (l1 & H3) & H4 & H5) (G1 & G2 & (l2 & G3) & G4 & G5). split; [congruence|split; [congruence|split; [|auto]]].
  exists (l1 ++ l2). rewrite G3, H3, app_assoc. auto.
Qed.
Lemma same_text_trans a b c : same_text a b -> same_text b c -> same_text a c.
Proof. intros (H1 & H2 & H3 & H4) (G1 & G2 & G3 & G4). split; [eapply stays_trans; eauto|repeat split; congruence]. Qed.
Lemma stay_same (P : note -> note -> Prop) s s' : (forall a, P a a) -> ps_notes s' = ps_notes s -> stay P s s'.
Proof. intros HP H Hi. unfold notes_have_ids, note_referenced in *. rewrite H. split; [auto|]. intros label a [Ha _]. exists a. auto. Qed.
(** One note is changed. *)
Lemma stay_insert (P : note -> note -> Prop) label nt s s' : (forall a, P a a) -> n_id nt <> [] -> ps_notes s' = bt_insert label nt (ps_notes s) ->
  (notes_have_ids s -> forall a, note_referenced label a s -> P a nt) -> stay P s s'.
Proof.
  intros HP Hn H Ha Hi. unfold notes_have_ids, note_referenced. rewrite H. split.
  - intros l b Hb. destruct (list_eq_dec N.eq_dec l label) as [-> | n]; [rewrite assoc_bt in Hb; injection Hb as <-; auto|].
    rewrite assoc_bt_other in Hb by auto. eapply Hi; eauto.
  - intros l a [E1 E2]. destruct (list_eq_dec N.eq_dec l label) as [-> | n].
    + exists nt. rewrite assoc_bt. split; [auto|]. apply Ha; [auto|split; auto].
    + exists a. rewrite assoc_bt_other by auto. auto.
Qed.
Lemma note_num_none label s a : note_num label s = None -> ~ note_referenced label a s.
Proof. unfold note_num. intros H [H1 H2]. rewrite H1 in H. congruence. Qed.
Lemma note_num_some label s num : note_num label s = Some num -> exists a, assoc label (ps_notes s) = Some a /\ n_seq a = Some num.
Proof. unfold note_num. destruct (assoc label (ps_notes s)) as [a|]; [eauto|discriminate]. Qed.
Lemma stay_noteref T label s v s' : noteref_op T label s = Ret v s' -> stay same_text s s'.
Proof.
  intros H Hi. destruct (note_num label s) as [num|] eqn:E.
  - apply note_num_some in E as (a & E1 & E2).
    assert (n_seq a <> None) as E3 by congruence.
    destruct (noteref_again T label a s v s' E1 E3 (Hi _ _ E1) H) as (num' & _ & _ & Hn).
    refine (stay_insert _ label _ s s' same_text_refl _ Hn _ Hi); [exact (Hi _ _ E1)|].
    intros _ a' [H1 _]. assert (a' = a) as -> by congruence.
    split; [|auto]. split; [auto|split; [auto|split; [eexists; reflexivity|auto]]].
  - destruct (noteref_new T label s v s' E H) as [_ Hn]. rewrite bt_twice in Hn.
    refine (stay_insert _ label _ s s' same_text_refl _ Hn _ Hi); [apply id_nonempty|].
    intros _ a Ha. destruct (note_num_none _ _ _ E Ha).
Qed.
Lemma stay_declare T label s v s' : declare_op T label s = Ret v s' -> stay same_text s s'.
Proof.
  intros H. apply declare_eq in H as [-> | [Hk ->]]; [apply stay_same; [apply same_text_refl|auto]|].
  eapply stay_insert; [apply same_text_refl| |reflexivity|]; [apply id_nonempty|].
  intros _ a [Ha _]. unfold has_key in Hk. rewrite Ha in Hk. discriminate.
Qed.
Lemma define_full label c l a s v s' : define_op label c l a s = Ret v s' ->
  match assoc label (ps_notes s) with
  | None => s' = s
  | Some nt => match n_link nt with
               | Some _ => s' = s
               | None => s' = set_notes (bt_insert label (mk_note (n_id nt) (Some c) (if is_empty l then None else Some l)
                                          (Some a) (n_seq nt) (n_refids nt)) (ps_notes s)) s
               end
  end.
Proof.
  unfold define_op, bind at 1, get. destruct (assoc label (ps_notes s)) as [nt|]; [destruct (n_link nt)|]; unfold ret, modify; intros H; injection H; auto.
Qed.
Lemma same_stay s s' : stay same_text s s' -> stay stays s s'.
Proof. intros H Hi. destruct (H Hi) as [H1 H2]. split; [auto|]. intros label a Ha. destruct (H2 _ _ Ha) as (b & Hb & Hs & _). eauto. Qed.
Lemma stay_define label c l a s v s' : define_op label c l a s = Ret v s' -> stay stays s s'.
Proof.
  intros H Hi. apply define_full in H. destruct (assoc label (ps_notes s)) as [nt|] eqn:E.
  - destruct (n_link nt); [subst s'; apply stay_same; [apply stays_refl|auto|auto]|].
    refine (stay_insert _ label _ s s' stays_refl _ _ _ Hi); [|rewrite H; reflexivity|]; [exact (Hi _ _ E)|].
    intros _ b [Hb _]. assert (b = nt) as -> by congruence.
    split; [auto|split; [auto|split; [exists []; rewrite app_nil_r; auto|cbn; split; congruence]]].
  - subst s'. apply stay_same; [apply stays_refl|auto|auto].
Qed.
Lemma stay_trans (P : note -> note -> Prop) s1 s2 s3 : (forall a b c, P a b -> P b c -> P a c) -> (forall a b, P a b -> n_seq b = n_seq a) ->
  stay P s1 s2 -> stay P s2 s3 -> stay P s1 s3.
Proof.
  intros HP Hq H1 H2 Hi. destruct (H1 Hi) as [H3 H4]. destruct (H2 H3) as [H5 H6]. split; [auto|].
  intros label a Ha. destruct (H4 _ _ Ha) as (b & Hb & Pb). destruct (H6 label b) as (c & Hc & Pc).
  - split; [auto|]. rewrite (Hq _ _ Pb). apply Ha.
  - exists c. eauto.
Qed.
Lemma steps_stay W T : graf_steps W T (stay same_text).
Proof.
  split; try (intros; apply stay_same; [apply same_text_refl|reflexivity]).
  - intros s1 s2 s3. apply stay_trans; [apply same_text_trans|]. intros a b [[H _] _]. exact H.
  - intros s s1 H. exact H.
  - intros s id v s' H. apply footnote_same in H as (_ & _ & _ & H1 & _). apply stay_same; [apply same_text_refl|auto].
  - intros s label v s' H. eapply stay_noteref; eauto.
Qed.
Lemma steps_stays W T : steps W T (stay stays).
Proof.
  split; try (intros; apply stay_same; [apply stays_refl|reflexivity]).
  - intros s1 s2 s3. apply stay_trans; [apply stays_trans|]. intros a b [H _]. exact H.
  - intros s s1 H. exact H.
  - intros s id v s' H. apply footnote_same in H as (_ & _ & _ & H1 & _). apply stay_same; [apply stays_refl|auto].
  - intros s label v s' H. apply same_stay. eapply stay_noteref; eauto.
  - intros s label v s' H. apply same_stay. eapply stay_declare; eauto.
  - intros s label c l a v s' H. eapply stay_define; eauto.
Qed.
Lemma new_state_ids c : notes_have_ids (new_state c).
Proof. intros label nt H. discriminate. Qed.
Lemma graf_stay W T fuel n text s t s' : notes_have_ids s -> ps_borrowed s = false -> @cache_ok (own T) (ps_cache s) ->
  graf_n W T fuel n text s = Ret t s' ->
  notes_have_ids s' /\ forall label a, note_referenced label a s -> exists b, note_referenced label b s' /\ same_text a b.
Proof.
  intros Hi Hb Hc H. pose proof (graf_keeps (own T) W T _ (steps_stay W T) fuel n text s t s' eq_refl Hb Hc H Hi) as [H1 H2].
  split; [auto|]. intros label a Ha. destruct (H2 _ _ Ha) as (b & Hb1 & Hs). exists b. split; [|auto]. split; [auto|].
  destruct Hs as [[Hs _] _]. rewrite Hs. apply Ha.
Qed.
Lemma block_stay W T fuel n text s t s' : notes_have_ids s -> ps_borrowed s = false -> @cache_ok (own T) (ps_cache s) ->
  block W T (graf_n W T fuel n) text s = Ret t s' ->
  notes_have_ids s' /\ forall label a, note_referenced label a s -> exists b, note_referenced label b s' /\ stays a b.
Proof.
  intros Hi Hb Hc H. pose proof (@block_keeps (own T) W T _ (steps_stays W T) eq_refl fuel n text s Hb Hc) as P. rewrite H in P.
  destruct P as (_ & _ & P). destruct (P Hi) as [H1 H2].
  split; [auto|]. intros label a Ha. destruct (H2 _ _ Ha) as (b & Hb1 & Hs). exists b. split; [|auto]. split; [auto|].
  destruct Hs as [Hs _]. rewrite Hs. apply Ha.
Qed.
Lemma not_referenced label s : (forall a, ~ note_referenced label a s) -> note_num label s = None.
Proof.
  intros H. unfold note_num. destruct (assoc label (ps_notes s)) as [a|] eqn:E; [|auto]. destruct (n_seq a) eqn:E2; [|auto].
  destruct (H a). split; [auto|congruence].
Qed.
Lemma first_reference T h label s html s' : cap_opt 2 h = Some label -> (forall a, ~ note_referenced label a s) ->
  f_parse_note_refs T h s = Ret html s' ->
  exists num anchor attrs a, note_referenced label a s' /\ n_id a <> [] /\
  html = generate_tag (u "sup") (Some (note_html num anchor (n_id a) (seqb (cap_or 3 h) (u "!")))) attrs.
Proof.
  intros Hl Hr H. apply noteref_shape in H as (label' & num & refid & id & attrs & nolink & H1 & H2 & H3 & H4).
  assert (label' = label) as -> by congruence.
  destruct (noteref_new _ _ _ _ _ (not_referenced _ _ Hr) H3) as [H5 H6].
  exists num, refid, attrs. eexists. split; [split|split].
  - rewrite H6, assoc_bt. reflexivity.
  - discriminate.
  - cbn [n_id]. apply id_nonempty.
  - cbn [n_id]. injection H5 as _ _ H5. rewrite <- H5, H4. unfold note_html, cap_or. rewrite H2. reflexivity.
Qed.
Lemma reference_forgets T h label s html s' : cap_opt 2 h = Some label -> (forall a, ~ note_referenced label a s) ->
  f_parse_note_refs T h s = Ret html s' -> exists a, note_referenced label a s' /\ n_content a = None.
Proof.
  intros Hl Hr H. apply noteref_shape in H as (label' & num & refid & id & attrs & nolink & H1 & H2 & H3 & H4).
  assert (label' = label) as -> by congruence.
  destruct (noteref_new _ _ _ _ _ (not_referenced _ _ Hr) H3) as [H5 H6]. eexists. split; [split|].
  - rewrite H6, assoc_bt. reflexivity.
  - discriminate.
  - reflexivity.
Qed.
Lemma later_reference T h label a s html s' : cap_opt 2 h = Some label -> note_referenced label a s -> notes_have_ids s ->
  f_parse_note_refs T h s = Ret html s' ->
  exists num anchor attrs, n_seq a = Some num /\
  html = generate_tag (u "sup") (Some (note_html num anchor [] (seqb (cap_or 3 h) (u "!")))) attrs.
Proof.
  intros Hl [Ha Hs] Hi H. apply noteref_shape in H as (label' & num & refid & id & attrs & nolink & H1 & H2 & H3 & H4).
  assert (label' = label) as -> by congruence.
  destruct (noteref_again _ _ _ _ _ _ Ha Hs (Hi _ _ Ha) H3) as (num' & H5 & H6 & _). injection H6 as <- _ ->.
  exists num, refid, attrs. split; [auto|]. rewrite H4. unfold note_html, cap_or. rewrite H2. reflexivity.
Qed.

(** ** Definitions *)
Lemma definition_kept W T fuel n h label a s t s' : cap_opt 1 h = Some label -> note_referenced label a s -> n_link a = None ->
  notes_have_ids s -> ps_borrowed s = false -> @cache_ok (own T) (ps_cache s) ->
  parse_note_defs T (graf_n W T fuel n) h s = Ret t s' ->
  exists body kind text s1 atts b, cap_opt 4 h = Some body /\ cap_opt 2 h = Some kind /\ graf_n W T fuel n body s = Ret text s1 /\
  note_referenced label b s' /\ stays a b /\ n_content b = Some text /\ n_attrs b = Some atts /\
  (kind = [] -> n_link b = None) /\ (kind <> [] -> n_link b = Some kind).
Proof.
  intros Hl Ha Hk Hi Hb Hc. unfold parse_note_defs. intros H.
  apply bind_inv in H as (label' & s0 & H0 & H). unfold cap_opt in Hl. unfold capx in H0. rewrite Hl in H0. apply ret_inv in H0 as [<- <-].
  apply bind_inv in H as (link & s0 & H0 & H). unfold capx in H0. destruct (cap_text 2 (h_caps h)) as [x|] eqn:E2; [|discriminate]. apply ret_inv in H0 as [<- <-].
  apply bind_inv in H as (att & s0 & H0 & H). unfold capx in H0. destruct (cap_text 3 (h_caps h)) as [y|]; [|discriminate]. apply ret_inv in H0 as [<- <-].
  apply bind_inv in H as (body & s0 & H0 & H). unfold capx in H0. destruct (cap_text 4 (h_caps h)) as [z|] eqn:E4; [|discriminate]. apply ret_inv in H0 as [<- <-].
  unfold bind at 1, get at 1 in H. unfold has_key in H. rewrite (proj1 Ha) in H. unfold bind at 1, ret at 1 in H.
  apply bind_inv in H as (text & s1 & H1 & H).
  destruct (graf_stay W T fuel n z s text s1 Hi Hb Hc H1) as [Hi1 Hs1].
  destruct (Hs1 _ _ Ha) as (b1 & Hb1 & Hst & _ & _ & Hlk).
  unfold bind at 1, get at 1 in H. rewrite (proj1 Hb1) in H. rewrite Hlk, Hk in H.
  apply bind_inv in H as (ba & s2 & H2 & H). destruct (calm_ba y ElNone true (t_restricted T)) as [[ba' Hba]|[p Hp]]; [rewrite Hba in H2|rewrite Hp in H2; discriminate].
  injection H2 as <- <-. unfold bind, modify, ret in H. injection H as _ <-.
  exists z, x, text, s1, (ba_to_string ba'). eexists. split; [unfold cap_opt; exact E4|]. split; [unfold cap_opt; exact E2|]. split; [auto|]. split; [split|split; [|split; [|split]]].
  - cbn [ps_notes set_notes]. rewrite assoc_bt. reflexivity.
  - cbn [n_seq]. apply Hb1.
  - destruct Hst as (G1 & G2 & G3 & G4 & G5). split; [exact G1|split; [exact G2|split; [exact G3|cbn; split; congruence]]].
  - reflexivity.
  - reflexivity.
  - cbn [n_link]. destruct x; cbn [is_empty]; split; congruence.
Qed.

(** ** Back links *)
Lemma symbols_eq i : contains_char i SYMS_RE_S = existsb (N.eqb i) symbols.
Proof. unfold contains_char, SYMS_RE_S, symbols. lits. reflexivity. Qed.
Lemma dec_digit_text n : digit_text (dec n).
Proof. destruct (dec_spec n) as [H1 _]. split; [auto|]. eapply Forall_impl; [|apply dec_digits]. auto. Qed.
Lemma char_entity i s : (i <= 4294967295 -> exists sym, num_ref i sym /\ char_code_to_entity i s = Ret sym s) /\
  (4294967295 < i -> char_code_to_entity i s = Panic BadNumber).
Proof.
  destruct (charref_dec_prop [] (dec i) [] s (fun F => F) (fun F => F) (dec_digit_text i)) as [H1 H2].
  destruct (dec_spec i) as (_ & _ & Hd). rewrite Hd in *. unfold char_code_to_entity. rewrite !app_nil_r in *. cbn [app] in *. split; intros H.
  - destruct (H1 H) as (x & Hx & He). rewrite app_nil_r in He. eauto.
  - auto.
Qed.
Lemma char_entity_inv i s sym s' : char_code_to_entity i s = Ret sym s' -> s' = s /\ num_ref i sym.
Proof.
  intros H. destruct (char_entity i s) as [H1 H2]. destruct (N.le_gt_cases i 4294967295) as [Hi|Hi].
  - destruct (H1 Hi) as (x & Hx & He). rewrite He in H. apply ret_inv in H as [<- <-]. auto.
  - rewrite (H2 Hi) in H. discriminate.
Qed.
Lemma back_ref_eq r x : back_ref r x = back_link r x.
Proof. unfold back_ref, back_link. reflexivity. Qed.
Lemma back_refs_inv (inc : bool) : forall refids i s links s', back_refs refids i inc s = Ret links s' -> s' = s /\
  List.length links = List.length refids /\
  forall k id, nth_error refids k = Some id -> exists sym, num_ref (if inc then i + N.of_nat k else i) sym /\ nth_error links k = Some (back_link id sym).
Proof.
  induction refids as [|r l IH]; intros i s links s' H; cbn [back_refs] in H.
  - apply ret_inv in H as [<- <-]. split; [auto|split; [auto|]]. intros [|k] id Hk; discriminate.
  - apply bind_inv in H as (sym & s1 & H1 & H). apply char_entity_inv in H1 as [-> H1].
    apply bind_inv in H as (rest & s2 & H2 & H). apply IH in H2 as (-> & H2 & H3). rewrite back_ref_eq in H. apply ret_inv in H as [<- <-].
    split; [auto|split; [cbn; lia|]]. intros [|k] id Hk; cbn [nth_error] in *.
    + injection Hk as <-. exists sym. split; [|reflexivity]. destruct inc; [rewrite N.add_0_r|]; auto.
    + destruct (H3 _ _ Hk) as (y & Hy & He). exists y. split; [|auto]. destruct inc; [|auto]. replace (i + N.of_nat (S k)) with (i + 1 + N.of_nat k) by lia. auto.
Qed.
Lemma back_links_of nt kind start s text s' : make_back_ref_link nt kind start s = Ret text s' ->
  s' = s /\ linked_back (match n_link nt with Some k => k | None => kind end) start (n_refids nt) text.
Proof.
  unfold make_back_ref_link. generalize (match n_link nt with Some k => k | None => kind end). intros k.
  destruct (seqb k (u "!")) eqn:E1; [apply seqb_eq in E1; intros H; injection H as <- <-; split; [auto|apply lb_none; auto]|].
  destruct (seqb k (u "^")) eqn:E2.
  - apply seqb_eq in E2. destruct (n_refids nt) as [|id l] eqn:E3; intros H.
    + apply ret_inv in H as [<- <-]. split; [auto|apply lb_no_first; auto].
    + apply bind_inv in H as (sym & s1 & H1 & H). apply char_entity_inv in H1 as [-> H1]. rewrite back_ref_eq in H. apply ret_inv in H as [<- <-].
      split; [auto|eapply lb_first; eauto].
  - intros H. apply bind_inv in H as (links & s1 & H1 & H). apply back_refs_inv in H1 as (-> & H1 & H2). apply ret_inv in H as [<- <-].
    split; [auto|]. apply lb_all with links; [intros ->; rewrite seqb_refl in E1; discriminate|intros ->; rewrite seqb_refl in E2; discriminate| |auto].
    split; [auto|]. intros j id Hj. destruct (H2 _ _ Hj) as (sym & Hs & He). exists sym. split; [|auto].
    unfold link_char. rewrite symbols_eq in Hs. destruct (existsb (N.eqb start) symbols); exact Hs.
Qed.
Lemma back_refs_total (inc : bool) : forall refids i s, i + N.of_nat (List.length refids) <= 4294967295 ->
  exists links, back_refs refids i inc s = Ret links s.
Proof.
  induction refids as [|r l IH]; intros i s H; cbn [back_refs]; [eexists; reflexivity|]. cbn [List.length] in H.
  destruct (proj1 (char_entity i s)) as (sym & _ & E); [lia|]. unfold bind at 1. rewrite E.
  destruct (IH (if inc then i + 1 else i) s) as (rest & E2); [destruct inc; lia|]. unfold bind at 1. rewrite E2. eexists; reflexivity.
Qed.
Lemma back_links_total nt kind start s : start + N.of_nat (List.length (n_refids nt)) <= 4294967295 ->
  exists text, make_back_ref_link nt kind start s = Ret text s.
Proof.
  intros H. unfold make_back_ref_link. generalize (match n_link nt with Some k => k | None => kind end). intros k.
  destruct (seqb k (u "!")); [eexists; reflexivity|]. destruct (seqb k (u "^")).
  - destruct (n_refids nt) as [|id l]; [eexists; reflexivity|]. destruct (proj1 (char_entity start s)) as (sym & _ & E); [lia|].
    unfold bind. rewrite E. eexists; reflexivity.
  - destruct (back_refs_total (negb (contains_char start SYMS_RE_S)) (n_refids nt) start s H) as (links & E).
    unfold bind. rewrite E. eexists; reflexivity.
Qed.

(** ** Lists of notes *)
Lemma note_item_of kind start kv s item s' : note_item kind start kv s = Ret item s' -> s' = s /\ note_shown kind start kv item.
Proof.
  unfold note_item. intros H. apply bind_inv in H as (links & s1 & H1 & H). apply back_links_of in H1 as [-> H1]. apply ret_inv in H as [<- <-].
  split; [auto|]. exists links. split; [auto|]. unfold shown_note. unfold tab. destruct (n_attrs (snd kv)); destruct (n_content (snd kv)); reflexivity.
Qed.
Lemma unref_eq kv : unref_item kv = unreferenced kv.
Proof. unfold unref_item, unreferenced, tab. reflexivity. Qed.
Lemma shown_nonempty kind start kv item : note_shown kind start kv item -> item <> [].
Proof. intros (links & _ & ->). unfold shown_note. destruct (n_attrs (snd kv)); destruct (n_content (snd kv)); discriminate. Qed.
Lemma join_empty sep l : Forall (fun x : str => x <> []) l -> is_empty (join sep l) = match l with [] => true | _ => false end.
Proof. intros H. destruct l as [|x l]; [reflexivity|]. inversion H; subst. destruct x; [congruence|]. destruct l; reflexivity. Qed.
Lemma notes_listed T h s html s' : f_note_lists T h s = Ret html s' ->
  exists kind extras start, cap_opt 3 h = Some kind /\ cap_opt 4 h = Some extras /\
  start = match cap_opt 2 h with Some (c :: _) => c | _ => 97 end /\ ps_notes s' = ps_notes s /\ ps_unref s' = ps_unref s /\
  let options := kind ++ extras ++ [start] in
  (assoc options (ps_nl_cache s) <> None -> html = []) /\
  (assoc options (ps_nl_cache s) = None -> exists atts items,
     Forall2 (note_shown kind start) (ps_notes s) items /\
     html = note_list atts (items ++ if seqb extras (u "+") then map unreferenced (ps_unref s) else [])) /\
  (forall o, assoc o (ps_nl_cache s') <> None <-> o = options \/ assoc o (ps_nl_cache s) <> None).
Proof.
  unfold f_note_lists. intros H.
  apply bind_inv in H as (att & s0 & H0 & H). unfold capx in H0. destruct (cap_text 1 (h_caps h)) as [x|]; [|discriminate]. apply ret_inv in H0 as [<- <-].
  apply bind_inv in H as (kind & s0 & H0 & H). unfold capx in H0. destruct (cap_text 3 (h_caps h)) as [y|] eqn:E3; [|discriminate]. apply ret_inv in H0 as [<- <-].
  apply bind_inv in H as (extras & s0 & H0 & H). unfold capx in H0. destruct (cap_text 4 (h_caps h)) as [z|] eqn:E4; [|discriminate]. apply ret_inv in H0 as [<- <-].
  apply bind_inv in H as (start & s0 & H0 & H).
  assert (s0 = s /\ start = match cap_opt 2 h with Some (c :: _) => c | _ => 97 end) as [-> Hst].
  { destruct (cap_opt 2 h) as [[|c r]|]; [discriminate|injection H0 as <- <-; auto|injection H0 as <- <-; auto]. }
  exists y, z, start. split; [exact E3|split; [exact E4|split; [exact Hst|]]].
  unfold bind at 1, get at 1 in H. set (o := y ++ z ++ [start]) in *.
  apply bind_inv in H as (result & s1 & H1 & H). unfold has_key in H1. destruct (assoc o (ps_nl_cache s)) as [r|] eqn:E.
  - injection H1 as <- <-. cbn [is_empty] in H. apply ret_inv in H as [<- <-]. split; [auto|split; [auto|]]. cbv zeta.
    split; [auto|split; [discriminate|]]. intros o'. split; [auto|]. intros [-> | H]; [congruence|auto].
  - apply bind_inv in H1 as (items & s2 & H2 & H1). apply (mapM_forall2 _ (note_shown y start)) in H2 as [-> H2]; [|intros; eapply note_item_of; eauto].
    cbv zeta in H1. unfold bind, modify, ret in H1. injection H1 as H1 Hs1.
    set (rows := items ++ (if seqb z (u "+") then map unref_item (ps_unref s) else [])) in *.
    assert (rows = items ++ (if seqb z (u "+") then map unreferenced (ps_unref s) else [])) as Hrows.
    { unfold rows. destruct (seqb z (u "+")); [|reflexivity]. apply (f_equal (app items)). apply map_ext. apply unref_eq. }
    assert (Forall (fun x : str => x <> []) rows) as Hne.
    { rewrite Hrows. apply Forall_app. split.
      - clear - H2. induction H2 as [|kv item l l' H H2 IH]; constructor; [eapply shown_nonempty; eauto|auto].
      - destruct (seqb z (u "+")); [|constructor]. apply Forall_forall. intros i Hi. apply in_map_iff in Hi as (kv & <- & _). discriminate. }
    assert (forall o', assoc o' (ps_nl_cache s1) <> None <-> o' = o \/ assoc o' (ps_nl_cache s) <> None) as Hnl.
    { subst s1. cbn [ps_nl_cache set_nl_cache]. intros o'. destruct (list_eq_dec N.eq_dec o' o) as [-> | n].
      - rewrite assoc_im. split; [auto|discriminate].
      - rewrite assoc_im_other by auto. split; [auto|]. intros [F|F]; [contradiction|auto]. }
    assert (ps_notes s1 = ps_notes s /\ ps_unref s1 = ps_unref s) as [Hn1 Hu1] by (subst s1; auto).
    rewrite <- H1 in H. change (join nl rows) with (join [10] rows) in H. rewrite (join_empty [10] rows Hne) in H.
    destruct rows as [|r0 rows'] eqn:Er.
    + apply ret_inv in H as [<- <-]. split; [auto|split; [auto|]]. split; [congruence|split; [|auto]]. intros _.
      exists [], items. split; [auto|]. rewrite <- Hrows. reflexivity.
    + apply bind_inv in H as (ba & s3 & H3 & H).
      destruct (calm_ba x ElNone true (t_restricted T)) as [[ba' Hba]|[p Hp]]; [rewrite Hba in H3|rewrite Hp in H3; discriminate].
      injection H3 as <- <-. apply ret_inv in H as [<- <-]. split; [auto|split; [auto|]]. split; [congruence|split; [|auto]]. intros _.
      exists (ba_to_string ba'), items. split; [auto|]. rewrite <- Hrows. unfold note_list, nl, tab. reflexivity.
Qed.

(** ** Order *)
Definition sorted_keys {A} (l : list (str * A)) : Prop := StronglySorted lex_lt (map fst l).
Lemma bt_keys {A} k (v : A) l k' : In k' (map fst (bt_insert k v l)) -> k' = k \/ In k' (map fst l).
Proof.
  induction l as [|[k0 v0] l IH]; cbn [bt_insert].
  - cbn. intros [<-|[]]. auto.
  - destruct (str_cmp k k0) eqn:E; cbn.
    + intros [H|H]; [auto|auto].
    + intros [<-|[H|H]]; auto.
    + intros [<-|H]; auto. destruct (IH H); auto.
Qed.
Lemma bt_sorted {A} k (v : A) l : sorted_keys l -> sorted_keys (bt_insert k v l).
Proof.
  unfold sorted_keys. induction l as [|[k0 v0] l IH]; cbn [bt_insert].
  - cbn. intros _. constructor; constructor.
  - cbn [map fst]. intros H. inversion H as [|x y H1 H2]; subst. destruct (str_cmp k k0) eqn:E; cbn [map fst].
    + apply ProofState.str_cmp_eq in E. subst k0. constructor; auto.
    + apply str_cmp_lt in E. constructor; [auto|]. constructor; [auto|]. eapply Forall_impl; [|exact H2]. intros z. apply lex_trans. auto.
    + apply str_cmp_gt in E. constructor; [auto|]. apply Forall_forall. intros z Hz. apply bt_keys in Hz as [-> | Hz]; [auto|].
      rewrite Forall_forall in H2. auto.
Qed.
Lemma bt_perm {A} k (v : A) l : ~ In k (map fst l) -> Permutation (bt_insert k v l) ((k, v) :: l).
Proof.
  induction l as [|[k0 v0] l IH]; cbn [bt_insert map fst In]; intros H; [auto|].
  destruct (str_cmp k k0) eqn:E.
  - apply ProofState.str_cmp_eq in E. subst. tauto.
  - auto.
  - eapply perm_trans; [apply perm_skip, IH; tauto|]. apply perm_swap.
Qed.
Lemma sorted_nodup (l : list str) : StronglySorted lex_lt l -> NoDup l.
Proof.
  induction 1 as [|x l H IH Hx]; constructor; [|auto]. intros Hin. rewrite Forall_forall in Hx. exact (lex_irrefl x (Hx _ Hin)).
Qed.
Lemma sorted_unique (l : list str) : forall l', StronglySorted lex_lt l -> StronglySorted lex_lt l' -> Permutation l l' -> l = l'.
Proof.
  induction l as [|x l IH]; intros l' H1 H2 Hp.
  - apply Permutation_nil in Hp. auto.
  - destruct l' as [|y l']; [apply Permutation_sym in Hp; apply Permutation_nil in Hp; discriminate|].
    inversion H1 as [|? ? H3 H4]; subst. inversion H2 as [|? ? H5 H6]; subst. rewrite Forall_forall in H4, H6.
    assert (x = y) as ->.
    { assert (In x (y :: l')) as Hx by (eapply Permutation_in; [exact Hp|left; auto]).
      assert (In y (x :: l)) as Hy by (eapply Permutation_in; [apply Permutation_sym; exact Hp|left; auto]).
      destruct Hx as [Hx|Hx]; [auto|]. destruct Hy as [Hy|Hy]; [auto|].
      exfalso. apply (lex_irrefl x). eapply lex_trans; [apply H4; exact Hy|apply H6; exact Hx]. }
    f_equal. apply IH; auto. eapply Permutation_cons_inv; eauto.
Qed.
Lemma assoc_in {A} k (l : list (str * A)) v : NoDup (map fst l) -> (assoc k l = Some v <-> In (k, v) l).
Proof.
  induction l as [|[k0 v0] l IH]; cbn [assoc map fst In]; intros H; [split; [discriminate|tauto]|].
  inversion H as [|? ? H1 H2]; subst. destruct (seqb k0 k) eqn:E.
  - apply seqb_eq in E. subst k0. split.
    + intros F. injection F as ->. auto.
    + intros [F|F]; [congruence|]. exfalso. apply H1. change k with (fst (k, v)). apply in_map. exact F.
  - rewrite (IH H2). split; [auto|]. intros [F|F]; [|auto]. injection F as -> ->. rewrite seqb_refl in E. discriminate.
Qed.

(** The notes are kept sorted by label. *)
Definition keep_sorted (s s' : pstate) : Prop := sorted_keys (ps_notes s) -> sorted_keys (ps_notes s').
Lemma noteref_sorted T label s v s' : noteref_op T label s = Ret v s' -> keep_sorted s s'.
Proof.
  destruct v as [[num refid] id]. intros H Hs. apply noteref_eq in H as (nt & _ & _ & _ & nt' & _ & _ & H).
  assert (sorted_keys (ps_notes (note_before label s))) as Hb.
  { unfold note_before. destruct (match assoc label (ps_notes s) with Some n => n_seq n | None => None end); [auto|]. cbn. apply bt_sorted; auto. }
  destruct H as [-> | ->]; cbn; apply bt_sorted; auto.
Qed.
Lemma steps_sorted W T : steps W T keep_sorted.
Proof.
  assert (forall s s', ps_notes s' = ps_notes s -> keep_sorted s s') as Hsame by (intros s s' H; unfold keep_sorted; rewrite H; auto).
  split; try (intros; apply Hsame; reflexivity).
  - intros s1 s2 s3 H1 H2 H. auto.
  - intros s s1 H. exact H.
  - intros s id v s' H. apply footnote_same in H as (_ & _ & _ & H1 & _). unfold keep_sorted. rewrite H1. auto.
  - intros s label v s' H. eapply noteref_sorted; eauto.
  - intros s label v s' H. apply declare_eq in H as [-> | [_ ->]]; intros Hs; [auto|cbn; apply bt_sorted; auto].
  - intros s label c l a v s' H. apply define_eq in H as [-> | (nt & nt' & _ & _ & _ & ->)]; intros Hs; [auto|cbn; apply bt_sorted; auto].
Qed.

Definition renamed (label : str) (a : note) : note :=
  mk_note (n_id a) (n_content a) (n_link a) (n_attrs a) (Some label) (n_refids a).
Definition refs (l : list (str * note)) : list (str * note) :=
  flat_map (fun kv => match n_seq (snd kv) with Some i => [(i, renamed (fst kv) (snd kv))] | None => [] end) l.
Lemma rekey_refs l : forall o un, fst (fold_left rekey l (o, un)) = fold_left (fun o kv => bt_insert (fst kv) (snd kv) o) (refs l) o.
Proof.
  induction l as [|[label a] l IH]; intros o un; cbn [fold_left refs flat_map]; [reflexivity|].
  rewrite fold_left_app. cbn [rekey snd fst]. destruct (n_seq a); rewrite IH; reflexivity.
Qed.
Lemma inserts_perm {A} (l : list (str * A)) : forall o, NoDup (map fst (l ++ o)) ->
  Permutation (fold_left (fun o kv => bt_insert (fst kv) (snd kv) o) l o) (l ++ o).
Proof.
  induction l as [|[k v] l IH]; intros o H; cbn [fold_left]; [auto|]. cbn [app map fst] in H. inversion H as [|? ? H1 H2]; subst.
  assert (Permutation (bt_insert k v o) ((k, v) :: o)) as Hp.
  { apply bt_perm. intros F. apply H1. rewrite map_app. apply in_or_app. auto. }
  assert (Permutation (l ++ bt_insert k v o) ((k, v) :: l ++ o)) as Hp2.
  { eapply perm_trans; [apply Permutation_app_head; exact Hp|]. apply Permutation_sym, Permutation_middle. }
  eapply perm_trans; [apply IH|].
  - eapply Permutation_NoDup; [apply Permutation_map, Permutation_sym; exact Hp2|]. exact H.
  - exact Hp2.
Qed.
Lemma inserts_sorted {A} (l : list (str * A)) : forall o, sorted_keys o ->
  sorted_keys (fold_left (fun o kv => bt_insert (fst kv) (snd kv) o) l o).
Proof. induction l as [|[k v] l IH]; intros o H; cbn [fold_left]; [auto|]. apply IH. apply bt_sorted; auto. Qed.
Lemma refs_in l i b : In (i, b) (refs l) <-> exists label a, In (label, a) l /\ n_seq a = Some i /\ b = renamed label a.
Proof.
  unfold refs. rewrite in_flat_map. split.
  - intros ([label a] & H1 & H2). cbn [snd fst] in H2. destruct (n_seq a) as [j|] eqn:E; [|contradiction]. destruct H2 as [H2|[]].
    injection H2 as <- <-. exists label, a. auto.
  - intros (label & a & H1 & H2 & ->). exists (label, a). split; [auto|]. cbn [snd fst]. rewrite H2. left. auto.
Qed.
Lemma refs_nodup l : NoDup (map fst l) -> (forall l1 l2 a1 a2 i, In (l1, a1) l -> In (l2, a2) l -> n_seq a1 = Some i -> n_seq a2 = Some i -> l1 = l2) ->
  NoDup (map fst (refs l)).
Proof.
  induction l as [|[label a] l IH]; intros H1 H2; [constructor|]. cbn [map fst] in H1. inversion H1 as [|? ? H3 H4]; subst.
  assert (NoDup (map fst (refs l))) as Hn by (apply IH; [auto|]; intros l1 l2 a1 a2 i I1 I2; apply H2; right; auto).
  unfold refs. cbn [flat_map]. fold (refs l). cbn [snd fst]. destruct (n_seq a) as [i|] eqn:E; [|exact Hn].
  cbn [app map fst]. constructor; [|auto]. intros F. apply in_map_iff in F as ([j b] & F1 & F2). cbn in F1. subst j.
  apply refs_in in F2 as (label' & a' & F3 & F4 & _). assert (label = label') as -> by (eapply H2; [left; reflexivity|right; exact F3|exact E|exact F4]).
  apply H3. change label' with (fst (label', a')). apply in_map. auto.
Qed.
Lemma order_keys order s : notes_ok order s -> sorted_keys (ps_notes s) ->
  NoDup (map fst (refs (ps_notes s))) /\
  Permutation (map fst (refs (ps_notes s))) (map (fun k => dec (N.of_nat k)) (seq 1 (List.length order))).
Proof.
  intros (H1 & _ & H2 & H3) Hs. apply sorted_nodup in Hs.
  assert (NoDup (map fst (refs (ps_notes s)))) as Hn.
  { apply refs_nodup; [auto|]. intros l1 l2 a1 a2 i I1 I2 E1 E2. apply (assoc_in _ _ _ Hs) in I1, I2.
    destruct (H3 _ _ _ I1 E1) as (k1 & K1 & D1). destruct (H3 _ _ _ I2 E2) as (k2 & K2 & D2).
    assert (k1 = k2) as -> by (rewrite D1 in D2; apply dec_inj in D2; lia). congruence. }
  split; [auto|]. apply NoDup_Permutation; [auto| |].
  - apply FinFun.Injective_map_NoDup; [|apply seq_NoDup]. intros x y F. apply dec_inj in F. lia.
  - intros i. rewrite !in_map_iff. split.
    + intros ([j b] & <- & I). cbn [fst]. apply refs_in in I as (label & a & I & E & _). apply (assoc_in _ _ _ Hs) in I.
      destruct (H3 _ _ _ I E) as (k & K & ->). exists (S k). split; [f_equal; lia|]. apply in_seq.
      assert (k < List.length order)%nat by (apply nth_error_Some; congruence). lia.
    + intros (k & <- & I). apply in_seq in I. destruct (nth_error order (k - 1)) as [label|] eqn:E; [|apply nth_error_None in E; lia].
      destruct (H2 _ _ E) as (a & I1 & E1). exists (dec (N.of_nat k), renamed label a). split; [reflexivity|]. apply refs_in.
      exists label, a. split; [apply (assoc_in _ _ _ Hs); auto|]. split; [|auto]. rewrite E1. f_equal. f_equal. lia.
Qed.
Lemma listed_renamed label a : listed a (renamed label a) label.
Proof. unfold listed. cbn. auto 10. Qed.
Lemma rekey_notes s v s' : rekey_op s = Ret v s' -> ps_notes s' = fst (fold_left rekey (ps_notes s) ([], ps_unref s)).
Proof.
  unfold rekey_op, modify. destruct (ps_notes s) as [|x l] eqn:E.
  - intros H. injection H as _ <-. rewrite E. reflexivity.
  - destruct (fold_left rekey _ _) as [o un]. intros H. injection H as _ <-. reflexivity.
Qed.
Lemma rekey_ordered order s v s' : notes_ok order s -> sorted_keys (ps_notes s) -> rekey_op s = Ret v s' ->
  in_dictionary_order order s (ps_notes s').
Proof.
  intros Hok Hs H. apply rekey_notes in H. rewrite rekey_refs in H. destruct (order_keys order s Hok Hs) as [Hn Hp].
  assert (Permutation (ps_notes s') (refs (ps_notes s))) as Hpp.
  { rewrite H. eapply perm_trans; [apply inserts_perm; rewrite app_nil_r; exact Hn|]. rewrite app_nil_r. auto. }
  split; [|split].
  - rewrite H. apply inserts_sorted. constructor.
  - rewrite (Permutation_length Hpp). rewrite <- (map_length fst). rewrite (Permutation_length Hp). rewrite map_length, seq_length. auto.
  - intros k label E. destruct Hok as (_ & _ & H2 & _). destruct (H2 _ _ E) as (a & I1 & E1). exists a, (renamed label a). split; [auto|]. split; [|apply listed_renamed].
    eapply Permutation_in; [apply Permutation_sym; exact Hpp|]. apply refs_in. exists label, a. split; [|auto].
    apply assoc_in; [apply sorted_nodup; auto|auto].
Qed.
Lemma few_sorted n : (n <= 9)%nat -> StronglySorted lex_lt (map (fun k => dec (N.of_nat k)) (seq 1 n)).
Proof.
  intros H. do 10 (destruct n as [|n]; [vm_compute; repeat (constructor; [|repeat (constructor; [constructor; lia|]); constructor]); constructor|]). lia.
Qed.
Lemma rekey_numbers order s v s' : notes_ok order s -> sorted_keys (ps_notes s) -> rekey_op s = Ret v s' -> (List.length order <= 9)%nat ->
  in_number_order order s (ps_notes s').
Proof.
  intros Hok Hs H Hlen. destruct (rekey_ordered order s v s' Hok Hs H) as (D1 & D2 & D3).
  assert (map fst (ps_notes s') = map (fun k => dec (N.of_nat k)) (seq 1 (List.length order))) as Hk.
  { apply sorted_unique; [auto|apply few_sorted; auto|]. destruct (order_keys order s Hok Hs) as [Hn Hp].
    eapply perm_trans; [|exact Hp]. apply Permutation_map. apply rekey_notes in H. rewrite H, rekey_refs.
    eapply perm_trans; [apply inserts_perm; rewrite app_nil_r; exact Hn|]. rewrite app_nil_r. auto. }
  split; [auto|]. intros k label E. destruct (D3 _ _ E) as (a & b & I1 & I2 & I3). exists a, b. split; [auto|]. split; [|auto].
  assert (k < List.length order)%nat as Hk2 by (apply nth_error_Some; congruence).
  destruct (nth_error (ps_notes s') k) as [[i b']|] eqn:En; [|apply nth_error_None in En; lia].
  assert (nth_error (map fst (ps_notes s')) k = Some i) as Ei by (rewrite nth_error_map, En; reflexivity).
  rewrite Hk, nth_error_map in Ei. assert (nth_error (seq 1 (List.length order)) k = Some (1 + k)%nat) as Es.
  { rewrite (nth_error_nth' _ 0%nat) by (rewrite seq_length; auto). rewrite seq_nth by auto. reflexivity. }
  rewrite Es in Ei. cbn [option_map] in Ei. injection Ei as Ei.
  assert (dec (N.of_nat (1 + k)) = dec (1 + N.of_nat k)) as Ed by (f_equal; lia).
  assert (i = dec (1 + N.of_nat k)) as Ei2 by (rewrite <- Ed; symmetry; exact Ei). clear Ei Ed. subst i.
  apply nth_error_In in En. apply sorted_nodup in D1.
  apply (assoc_in _ _ _ D1) in En, I2. congruence.
Qed.
Lemma mapM_keeps {A B} (P : pstate -> pstate -> Prop) (f : A -> M B) : (forall s, P s s) -> (forall s1 s2 s3, P s1 s2 -> P s2 s3 -> P s1 s3) ->
  (forall a s b s', f a s = Ret b s' -> P s s') -> forall l s out s', mapM f l s = Ret out s' -> P s s'.
Proof.
  intros Hr Ht Hf. induction l as [|a l IH]; intros s out s' H; cbn [mapM] in H; [apply ret_inv in H as [_ <-]; auto|].
  apply bind_inv in H as (b & s1 & H1 & H). apply bind_inv in H as (bs & s2 & H2 & H). apply ret_inv in H as [_ <-]. eauto.
Qed.
Lemma lists_keep_notes T text s html s' : replace_allM (rx_re TEXT_NOTELIST_RE) (f_note_lists T) text s = Ret html s' -> ps_notes s' = ps_notes s.
Proof.
  unfold replace_allM. intros H. apply bind_inv in H as (parts & s1 & H1 & H). apply ret_inv in H as [_ <-].
  revert H1. apply (mapM_keeps (fun s s' => ps_notes s' = ps_notes s)); [auto|congruence|].
  intros [c|h] s2 b s3 H; cbn [replace_segM] in H; [apply ret_inv in H as [_ <-]; auto|].
  apply notes_listed in H as (kind & extras & start & _ & _ & _ & Hn & _). auto.
Qed.
Lemma lists_keep_unref T text s html s' : replace_allM (rx_re TEXT_NOTELIST_RE) (f_note_lists T) text s = Ret html s' -> ps_unref s' = ps_unref s.
Proof.
  unfold replace_allM. intros H. apply bind_inv in H as (parts & s1 & H1 & H). apply ret_inv in H as [_ <-].
  revert H1. apply (mapM_keeps (fun s s' => ps_unref s' = ps_unref s)); [auto|congruence|].
  intros [c|h] s2 b s3 H; cbn [replace_segM] in H; [apply ret_inv in H as [_ <-]; auto|].
  apply notes_listed in H as (kind & extras & start & _ & _ & _ & _ & Hn & _). auto.
Qed.
Lemma notes_in_order W T fuel n text t s text' html s' : block W T (graf_n W T fuel n) text (new_state []) = Ret t s ->
  place_note_lists T text' s = Ret html s' ->
  exists order, notes_ok order s /\ in_dictionary_order order s (ps_notes s') /\
  ((List.length order <= 9)%nat -> in_number_order order s (ps_notes s')).
Proof.
  intros H H1. destruct (block_notes_ok _ _ _ _ _ _ _ H) as [order Hok].
  pose proof (@block_keeps (own T) W T _ (steps_sorted W T) eq_refl fuel n text (new_state []) eq_refl cache_ok_nil) as P. rewrite H in P.
  destruct P as (_ & _ & P). assert (sorted_keys (ps_notes s)) as Hs by (apply P; constructor).
  change (place_note_lists T text') with (rekey_op ;;; replace_allM (rx_re TEXT_NOTELIST_RE) (f_note_lists T) text') in H1.
  apply bind_inv in H1 as (v & s1 & H2 & H1). apply lists_keep_notes in H1. rewrite H1.
  exists order. split; [auto|]. split; [eapply rekey_ordered; eauto|]. intros Hl. eapply rekey_numbers; eauto.
Qed.

(** ** Notes without references *)
Lemma rekey_unref l : NoDup (map fst l) -> forall o un label, assoc label (snd (fold_left rekey l (o, un))) =
  match assoc label l with Some nt => match n_seq nt with None => Some nt | Some _ => assoc label un end | None => assoc label un end.
Proof.
  induction l as [|[k a] l IH]; intros D o un label; cbn [fold_left assoc]; [reflexivity|]. cbn [map fst] in D. inversion D as [|? ? D1 D2]; subst.
  destruct (seqb k label) eqn:Ek.
  - apply seqb_eq in Ek. subst k. assert (assoc label l = None) as En.
    { destruct (assoc label l) as [b|] eqn:E; [|reflexivity]. exfalso. apply D1. apply (assoc_in _ _ _ D2) in E. change label with (fst (label, b)). apply in_map. exact E. }
    cbn [rekey]. destruct (n_seq a); rewrite IH by exact D2; rewrite En; [reflexivity|]. apply assoc_bt.
  - cbn [rekey]. assert (label <> k) as Nk by (intros ->; rewrite seqb_refl in Ek; discriminate). destruct (n_seq a); rewrite IH by exact D2; [reflexivity|]. rewrite assoc_bt_other by exact Nk. reflexivity.
Qed.
Lemma notes_kept_aside W T fuel n text t s text' html s' : block W T (graf_n W T fuel n) text (new_state []) = Ret t s ->
  place_note_lists T text' s = Ret html s' ->
  forall label nt, n_seq nt = None -> assoc label (ps_notes s) = Some nt -> assoc label (ps_unref s') = Some nt.
Proof.
  intros H H1 label nt Hn Ha.
  pose proof (@block_keeps (own T) W T _ (steps_sorted W T) eq_refl fuel n text (new_state []) eq_refl cache_ok_nil) as P. rewrite H in P.
  destruct P as (_ & _ & P). assert (sorted_keys (ps_notes s)) as Hs by (apply P; constructor).
  change (place_note_lists T text') with (rekey_op ;;; replace_allM (rx_re TEXT_NOTELIST_RE) (f_note_lists T) text') in H1.
  apply bind_inv in H1 as (v & s1 & H2 & H1). apply lists_keep_unref in H1. rewrite H1.
  unfold rekey_op, modify in H2. destruct (ps_notes s) as [|x l] eqn:E; [discriminate|]. destruct (fold_left rekey (x :: l) ([], ps_unref s)) as [o un] eqn:Ef.
  injection H2 as _ <-. cbn [ps_unref set_unref]. pose proof (rekey_unref (x :: l) (sorted_nodup _ Hs) [] (ps_unref s) label) as R. rewrite Ef, Ha, Hn in R. exact R.
Qed.

(** ** Footnote definitions *)
Definition numeric : cls := mk_cls false [CProp false PN].
Lemma fnid_shape : rx_re FNID_RE = RSeq (RCls (one 102)) (RSeq (RCls (one 110)) (RGroup 1 (RSeq (RCls numeric) (RStar true (RCls numeric))))).
Proof. reflexivity. Qed.
Lemma in_numeric c : 48 <= c <= 57 -> in_cls numeric c = true.
Proof.
  intros H. assert (In c [48; 49; 50; 51; 52; 53; 54; 55; 56; 57]) as Hin by (cbn [In]; lia).
  revert c Hin H. assert (forallb (in_cls numeric) [48; 49; 50; 51; 52; 53; 54; 55; 56; 57] = true) as P by (vm_compute; reflexivity).
  intros c Hin _. rewrite forallb_forall in P. auto.
Qed.
Lemma fn_captures w : digit_text w -> exists h, captures (rx_re FNID_RE) (u "fn" ++ w) = Some h /\ cap_text 1 (h_caps h) = Some w.
Proof.
  intros [Hne Hw]. destruct w as [|d w]; [congruence|]. inversion Hw as [|? ? Hd Hw']; subst.
  assert (exists st, match_at (rx_re FNID_RE) [] (u "fn" ++ d :: w) = Some st /\ cap_text 1 (m_caps st) = Some (d :: w)) as (st & H1 & H2).
  { eexists. split.
    - change (u "fn") with [102; 110]. cbn [app]. unfold match_at. rewrite fnid_shape.
      rewrite m_seq, m_cls, in_one, N.eqb_refl, m_seq, m_cls, in_one, N.eqb_refl, m_group, m_seq, m_cls, in_numeric by exact Hd.
      replace w with (w ++ []) at 1 by apply app_nil_r. apply m_star_greedy; [|reflexivity|reflexivity].
      apply forallb_forall. intros c Hc. apply in_numeric. rewrite Forall_forall in Hw'. apply Hw'. auto.
    - unfold cap_text. cbn [m_caps find_cap Nat.eqb option_map]. f_equal. cbn [m_after].
      pose proof (cap_str_app (d :: w) []) as P. rewrite app_nil_r in P. exact P. }
  exists (mk_hit_of (u "fn" ++ d :: w) st). split; [|exact H2].
  unfold captures, find_first. change (u "fn" ++ d :: w) with (102 :: 110 :: d :: w) in *. cbn [find_from]. rewrite H1. reflexivity.
Qed.
Lemma id_attr ba v : ba_id ba = Some v -> In (u "id", v) (ba_html_attrs ba).
Proof. intros H. apply ba_html_in. rewrite H. tauto. Qed.
Lemma attr_safe_fn_id : attr_safe (u "fn").
Proof. unfold attr_safe. lits. repeat constructor; intros F; repeat (destruct F as [F|F]; [discriminate|]); destruct F. Qed.
Lemma anchored_sup id t : attr_safe id -> generate_tag (u "sup") (Some t) (attr_insert (u "id") (u "fn" ++ id) []) =
  u "<sup id=""fn" ++ id ++ u """>" ++ t ++ u "</sup>".
Proof.
  intros H. unfold attr_insert. cbn [bt_insert]. unfold generate_tag. change (is_empty (u "sup")) with false. change (forallb is_alphanumeric (u "sup")) with true. cbn [negb].
  unfold join_html_attributes. cbn [filter fst]. change (forallb is_valid_attribute_char (u "id")) with true. cbn [flat_map].
  unfold attr_str; cbn [fst snd]. rewrite (quoteattr_safe (u "fn" ++ id)) by (apply attr_safe_app; [apply attr_safe_fn_id|auto]).
  lits; rewrite <- ?app_assoc; reflexivity.
Qed.
Lemma footnote_definition T n attrs content ba s t ba' c' s' : digit_text n -> attr_safe (t_link_prefix T) -> footnotes_ok T s ->
  block_footnote T (u "fn" ++ n) attrs content ba s = Ret (t, ba', c') s' ->
  t = u "p" /\ ps_footnotes s' = ps_footnotes s /\
  (forall id, assoc n (ps_footnotes s) = Some id -> s' = s /\ has_anchor id (ba_html_attrs ba') c') /\
  (assoc n (ps_footnotes s) = None -> ps_link_index s' = ps_link_index s + 1 /\
     has_anchor (t_link_prefix T ++ dec (ps_link_index s')) (ba_html_attrs ba') c').
Proof.
  intros Hn Hp Hok H. destruct (fn_captures n Hn) as (h & Hh & Hc). unfold block_footnote in H. rewrite Hh in H.
  apply bind_inv in H as (m & s0 & H0 & H). unfold capx in H0. rewrite Hc in H0. apply ret_inv in H0 as [<- <-].
  unfold bind at 1, get at 1 in H. apply bind_inv in H as (id & s1 & H1 & H).
  assert (attr_safe id) as Hid.
  { destruct (assoc n (ps_footnotes s)) as [fn|] eqn:E.
    - apply ret_inv in H1 as [<- _]. destruct Hok as (Hd & _ & Hok). rewrite Forall_forall in Hok.
      destruct (Hok fn) as (i & _ & ->); [|apply attr_safe_app; [auto|apply attr_safe_dec]].
      apply (assoc_in _ _ _ Hd) in E. change fn with (snd (n, fn)). apply in_map. exact E.
    - rewrite new_id_eq in H1. injection H1 as <- _. apply attr_safe_app; [auto|apply attr_safe_dec]. }
  set (ba1 := match ba_class ba with None => ba_set_class (Some (u "footnote")) ba | Some _ => ba end) in H.
  assert (t = u "p" /\ s' = s1 /\ has_anchor id (ba_html_attrs ba') c') as (Ht & Hs & Ha).
  { destruct (ba_id ba1) as [x|] eqn:E; apply ret_inv in H as [H <-]; injection H as <- <- <-; (split; [auto|split; [auto|]]).
    - right. destruct (negb (contains_char 94 attrs)); rewrite (anchored_sup id _ Hid), <- ?app_assoc; eexists; reflexivity.
    - left. apply id_attr. reflexivity. }
  split; [auto|]. subst s'. destruct (assoc n (ps_footnotes s)) as [fn|] eqn:E.
  - apply ret_inv in H1 as [<- <-]. split; [auto|]. split; [|discriminate]. intros id0 F. injection F as <-. auto.
  - rewrite new_id_eq in H1. injection H1 as H1 <-. split; [reflexivity|]. split; [discriminate|]. intros _. split; [reflexivity|].
    cbn [ps_link_index set_link_index]. rewrite H1. auto.
Qed.
