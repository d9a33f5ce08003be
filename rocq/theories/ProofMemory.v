(** Instances of the state logics: panics, the pattern cache, placeholders, span depth,
    requests, footnotes and notes. *)
From Coq Require Import ZArith Permutation.
From Verif Require Import Str Unicode Regex RegexParse RegexSnips RegexTheory RegexGroups Lib ModelBase ModelHtml ModelUrl
  ModelAttrs ModelInline ModelParser ProofAttrs Logic ProofWalk ProofState SpecParse SpecState.
#[local] Arguments u : simpl never.

Section Known.
Context {K : uids}.

(** ** Nothing to keep *)
Lemma steps_any W T : steps W T (fun _ _ => True).
Proof. split; auto. Qed.

Lemma parse_sites W T fuel c text p : known (t_uid T) -> cache_ok c -> parse W T fuel c text = Panic p -> bad T p.
Proof.
  intros HK Hc H. pose proof (parse_keeps W T _ (steps_any W T) HK fuel c text (fun _ _ _ _ => I) Hc) as P. rewrite H in P. exact P.
Qed.
Lemma parse_cache W T fuel c text html s : known (t_uid T) -> cache_ok c -> parse W T fuel c text = Ret html s -> cache_ok (ps_cache s).
Proof.
  intros HK Hc H. pose proof (parse_keeps W T _ (steps_any W T) HK fuel c text (fun _ _ _ _ => I) Hc) as P. rewrite H in P. apply P.
Qed.
Lemma parse_no_borrow W T fuel c text : known (t_uid T) -> cache_ok c -> parse W T fuel c text <> Panic BorrowError.
Proof.
  intros HK Hc H. apply parse_sites in H; [|auto|auto].
  destruct H as [H|[H|[H|[H|[[H _]|[_ H]]]]]]; try discriminate. congruence.
Qed.

(** ** Placeholders *)
Lemma assoc_none_in {A} k (l : list (str * A)) : ~ In k (map fst l) -> assoc k l = None.
Proof.
  induction l as [|[k' v'] l IH]; cbn; intros H; auto. rewrite seqb_neq by tauto. apply IH. tauto.
Qed.
Lemma im_insert_new {A} k (v : A) l : ~ In k (map fst l) -> im_insert k v l = l ++ [(k, v)].
Proof.
  induction l as [|[k' v'] l IH]; cbn; intros H; auto. rewrite seqb_neq by tauto. rewrite IH by tauto. reflexivity.
Qed.
Lemma nm_insert_new {A} k (v : A) l : ~ In k (map fst l) -> nm_insert k v l = l ++ [(k, v)].
Proof.
  induction l as [|[k' v'] l IH]; cbn; intros H; auto. destruct (k' =? k) eqn:E; [apply N.eqb_eq in E; tauto|].
  rewrite IH by tauto. reflexivity.
Qed.
Lemma fragment_token_inj T a b : fragment_token T a = fragment_token T b -> a = b.
Proof.
  unfold fragment_token. intros H. apply app_inv_head in H. apply app_inv_tail in H. apply dec_inj. exact H.
Qed.
Definition numbers_step (T : textile) (s s' : pstate) : Prop :=
  (exists ns, numbered T ns s) ->
  (exists ns, numbered T ns s') /\ (exists l, ps_shelf s' = ps_shelf s ++ l) /\ (exists l, ps_ref_cache s' = ps_ref_cache s ++ l).
Lemma numbers_same T s s' : ps_shelf s' = ps_shelf s -> ps_ref_cache s' = ps_ref_cache s -> ps_ref_index s' = ps_ref_index s ->
  numbers_step T s s'.
Proof.
  intros H1 H2 H3 [ns H]. unfold numbered in *. rewrite H1, H2, H3. split; [exists ns; exact H|].
  split; exists []; rewrite app_nil_r; reflexivity.
Qed.
Lemma footnote_same T id s v s' : footnote_op T id s = Ret v s' ->
  ps_shelf s' = ps_shelf s /\ ps_ref_cache s' = ps_ref_cache s /\ ps_ref_index s' = ps_ref_index s /\
  ps_notes s' = ps_notes s /\ ps_note_index s' = ps_note_index s /\ ps_span_depth s' = ps_span_depth s /\ ps_http s' = ps_http s.
Proof.
  unfold footnote_op, bind at 1, get at 1. unfold has_key at 1. destruct (assoc id (ps_footnotes s)) eqn:E.
  - unfold bind, ret, get. rewrite E. cbn. intros H. inversion H; subst. auto 10.
  - unfold bind. rewrite new_id_eq. unfold modify, ret, get. cbn [ps_footnotes set_footnotes set_link_index].
    rewrite assoc_im. cbn. intros H. inversion H; subst. cbn. auto 10.
Qed.
(** A note reference, step by step. *)
Definition note_before (label : str) (s : pstate) : pstate :=
  match match assoc label (ps_notes s) with Some n => n_seq n | None => None end with
  | Some _ => s
  | None => set_note_index (ps_note_index s + 1)
              (set_notes (bt_insert label (mk_note [] None None None (Some (dec (ps_note_index s))) []) (ps_notes s)) s)
  end.
Lemma noteref_eq T label s num refid id s' : noteref_op T label s = Ret (num, refid, id) s' ->
  exists nt, assoc label (ps_notes (note_before label s)) = Some nt /\ n_seq nt = Some num /\
  refid = t_link_prefix T ++ dec (ps_link_index s + 1) /\
  exists nt', n_seq nt' = Some num /\ n_refids nt' = n_refids nt ++ [refid] /\
  (s' = set_notes (bt_insert label nt' (ps_notes (note_before label s))) (set_link_index (ps_link_index s + 1) (note_before label s)) \/
   s' = set_notes (bt_insert label nt' (ps_notes (note_before label s))) (set_link_index (ps_link_index s + 2) (note_before label s))).
Proof.
  unfold noteref_op, bind at 1, get at 1. unfold note_before.
  assert (forall (n : str) s1 nt, assoc label (ps_notes s1) = Some nt -> n_seq nt = Some n -> ps_link_index s1 = ps_link_index s ->
    (refid <- new_id T ;;
      s <- get ;;
      nt <- of_opt MissingKey (assoc label (ps_notes s)) ;;
      id <- (if is_empty (n_id nt) then new_id T else ret []) ;;
      modify (fun s => set_notes
        (bt_insert label (mk_note (if is_empty (n_id nt) then id else n_id nt)
                              (n_content nt) (n_link nt) (n_attrs nt) (n_seq nt)
                              (n_refids nt ++ [refid])) (ps_notes s)) s) ;;;
      ret (n, refid, id)) s1 = Ret (num, refid, id) s' ->
    exists nt, assoc label (ps_notes s1) = Some nt /\ n_seq nt = Some num /\
    refid = t_link_prefix T ++ dec (ps_link_index s + 1) /\
    exists nt', n_seq nt' = Some num /\ n_refids nt' = n_refids nt ++ [refid] /\
    (s' = set_notes (bt_insert label nt' (ps_notes s1)) (set_link_index (ps_link_index s + 1) s1) \/
     s' = set_notes (bt_insert label nt' (ps_notes s1)) (set_link_index (ps_link_index s + 2) s1))) as P.
  { intros n s1 nt Hn Hseq Hl. unfold bind. rewrite new_id_eq. unfold get. cbn [ps_notes set_link_index]. rewrite Hn. cbn [of_opt].
    unfold ret at 1. destruct (is_empty (n_id nt)); [rewrite new_id_eq|]; unfold ret, modify; intros H;
      injection H as H1 H2 H3 H4; subst n; exists nt; (split; [auto|split; [auto|split; [rewrite <- H2, Hl; reflexivity|]]]).
    - eexists. split; [|split; [|right; rewrite <- H4; cbn [ps_link_index set_link_index ps_notes];
        replace (ps_link_index s1 + 1 + 1) with (ps_link_index s + 2) by (rewrite Hl; lia); reflexivity]]; cbn; [auto|rewrite <- H2; auto].
    - eexists. split; [|split; [|left; rewrite <- H4, <- Hl; reflexivity]]; cbn; [auto|rewrite <- H2; auto]. }
  destruct (assoc label (ps_notes s)) as [nt|] eqn:E; [destruct (n_seq nt) as [n|] eqn:E2|].
  - intros H. apply (P n s nt); auto.
  - cbv zeta. unfold bind at 1 2, modify at 1, ret at 1. intros H. eapply P; [apply assoc_bt| |reflexivity|exact H]. reflexivity.
  - cbv zeta. unfold bind at 1 2, modify at 1, ret at 1. intros H. eapply P; [apply assoc_bt| |reflexivity|exact H]. reflexivity.
Qed.
Lemma note_before_same label s :
  ps_shelf (note_before label s) = ps_shelf s /\ ps_ref_cache (note_before label s) = ps_ref_cache s /\
  ps_ref_index (note_before label s) = ps_ref_index s /\ ps_footnotes (note_before label s) = ps_footnotes s /\
  ps_span_depth (note_before label s) = ps_span_depth s /\ ps_http (note_before label s) = ps_http s /\
  ps_link_index (note_before label s) = ps_link_index s.
Proof. unfold note_before. destruct (match assoc label (ps_notes s) with Some n => n_seq n | None => None end); cbn; auto 10. Qed.
Lemma noteref_same T label s v s' : noteref_op T label s = Ret v s' ->
  ps_shelf s' = ps_shelf s /\ ps_ref_cache s' = ps_ref_cache s /\ ps_ref_index s' = ps_ref_index s /\
  ps_footnotes s' = ps_footnotes s /\ ps_span_depth s' = ps_span_depth s /\ ps_http s' = ps_http s /\
  ps_link_index s < ps_link_index s'.
Proof.
  destruct v as [[num refid] id]. intros H. apply noteref_eq in H as (nt & _ & _ & _ & nt' & _ & _ & H).
  destruct (note_before_same label s) as (H1 & H2 & H3 & H4 & H5 & H6 & H7).
  destruct H as [-> | ->]; cbn; rewrite H1, H2, H3, H4, H5, H6; repeat split; lia.
Qed.
Lemma declare_eq T label s v s' : declare_op T label s = Ret v s' ->
  s' = s \/ (has_key label (ps_notes s) = false /\
    s' = set_notes (bt_insert label (mk_note (t_link_prefix T ++ dec (ps_link_index s + 1)) None None None None []) (ps_notes s))
           (set_link_index (ps_link_index s + 1) s)).
Proof.
  unfold declare_op, bind at 1, get. destruct (has_key label (ps_notes s)).
  - intros H. injection H as _ H. auto.
  - unfold bind. rewrite new_id_eq. unfold modify. intros H. injection H as _ H. right. split; [auto|]. rewrite <- H. reflexivity.
Qed.
Lemma define_eq label c l a s v s' : define_op label c l a s = Ret v s' ->
  s' = s \/ exists nt nt', assoc label (ps_notes s) = Some nt /\ n_seq nt' = n_seq nt /\ n_refids nt' = n_refids nt /\
    s' = set_notes (bt_insert label nt' (ps_notes s)) s.
Proof.
  unfold define_op, bind at 1, get. destruct (assoc label (ps_notes s)) as [nt|].
  - destruct (n_link nt).
    + intros H. injection H as _ H. auto.
    + unfold modify. intros H. injection H as _ H. right. exists nt. eexists. split; [auto|]. split; [|split; [|symmetry; exact H]]; reflexivity.
  - intros H. injection H as _ H. auto.
Qed.
Lemma rekey_eq s v s' : rekey_op s = Ret v s' -> exists a b, s' = set_unref a (set_notes b s).
Proof.
  unfold rekey_op, modify. destruct (ps_notes s) as [|x l] eqn:E.
  - intros H. exists (ps_unref s'), (ps_notes s'). injection H as _ H. subst s'. destruct s; reflexivity.
  - destruct (fold_left rekey _ _) as [o un]. intros H. injection H as _ H. exists un, o. auto.
Qed.

Lemma steps_numbers W T : steps W T (numbers_step T).
Proof.
  split.
  - intros. apply numbers_same; reflexivity.
  - intros s1 s2 s3 H1 H2 H. destruct (H1 H) as (H3 & (l1 & H4) & (l2 & H5)). destruct (H2 H3) as (H6 & (l3 & H7) & (l4 & H8)).
    split; [auto|]. split; [exists (l1 ++ l3); rewrite H7, H4, app_assoc; auto|exists (l2 ++ l4); rewrite H8, H5, app_assoc; auto].
  - intros. apply numbers_same; reflexivity.
  - intros. apply numbers_same; reflexivity.
  - intros s t [ns (H1 & H2 & H3 & H4)]. fold (fragment_token T (ps_ref_index s + 1)).
    assert (~ In (ps_ref_index s + 1) (ns ++ map fst (ps_ref_cache s))) as Hnew.
    { intros H. rewrite Forall_forall in H3. apply H3 in H. lia. }
    assert (~ In (fragment_token T (ps_ref_index s + 1)) (map fst (ps_shelf s))) as Hk.
    { rewrite H1. intros H. apply in_map_iff in H as (x & Hx & Hin). apply fragment_token_inj in Hx. subst x.
      apply Hnew. apply in_or_app. auto. }
    rewrite (im_insert_new _ _ _ Hk).
    assert (Permutation ((ns ++ [ps_ref_index s + 1]) ++ map fst (ps_ref_cache s))
      ((ps_ref_index s + 1) :: ns ++ map fst (ps_ref_cache s))) as Hp.
    { rewrite <- app_assoc. symmetry. apply Permutation_middle. }
    split; [exists (ns ++ [ps_ref_index s + 1])|split; [eexists; reflexivity|exists []; rewrite app_nil_r; reflexivity]].
    split; [|split; [|split]]; cbn [ps_shelf set_shelf set_ref_index ps_ref_cache ps_ref_index].
    + rewrite !map_app, H1. reflexivity.
    + eapply Permutation_NoDup; [symmetry; exact Hp|]. constructor; auto.
    + eapply Permutation_Forall; [symmetry; exact Hp|]. constructor; [lia|]. eapply Forall_impl; [|exact H3]. cbn. intros. lia.
    + rewrite (Permutation_length Hp). cbn [List.length]. lia.
  - intros s t [ns (H1 & H2 & H3 & H4)].
    assert (~ In (ps_ref_index s + 1) (ns ++ map fst (ps_ref_cache s))) as Hnew.
    { intros H. rewrite Forall_forall in H3. apply H3 in H. lia. }
    rewrite nm_insert_new by (intros H; apply Hnew; apply in_or_app; auto).
    assert (Permutation (ns ++ (map fst (ps_ref_cache s) ++ [ps_ref_index s + 1]))
      ((ps_ref_index s + 1) :: ns ++ map fst (ps_ref_cache s))) as Hp.
    { rewrite app_assoc. symmetry. apply Permutation_cons_append. }
    split; [exists ns|split; [exists []; rewrite app_nil_r; reflexivity|eexists; reflexivity]].
    split; [|split; [|split]]; cbn [ps_shelf set_ref_cache set_ref_index ps_ref_cache ps_ref_index]; rewrite ?map_app; cbn [map fst].
    + exact H1.
    + eapply Permutation_NoDup; [symmetry; exact Hp|]. constructor; auto.
    + eapply Permutation_Forall; [symmetry; exact Hp|]. constructor; [lia|]. eapply Forall_impl; [|exact H3]. cbn. intros. lia.
    + rewrite (Permutation_length Hp). cbn [List.length]. lia.
  - intros. apply numbers_same; reflexivity.
  - intros. apply numbers_same; reflexivity.
  - intros. apply numbers_same; reflexivity.
  - intros. apply numbers_same; reflexivity.
  - intros. apply numbers_same; reflexivity.
  - intros s s1 H. unfold numbers_step, numbered in *. cbn [ps_shelf ps_ref_cache ps_ref_index set_span_depth] in *. exact H.
  - intros s id v s' H. apply footnote_same in H as (H1 & H2 & H3 & _). apply numbers_same; auto.
  - intros s id v s' H. apply noteref_same in H as (H1 & H2 & H3 & _). apply numbers_same; auto.
  - intros s label v s' H. apply declare_eq in H as [-> | [_ ->]]; apply numbers_same; reflexivity.
  - intros s label c l a v s' H. apply define_eq in H as [-> | (nt & nt' & _ & _ & _ & ->)]; apply numbers_same; reflexivity.
Qed.
Lemma parse_numbered W T fuel c text html s : known (t_uid T) -> cache_ok c -> parse W T fuel c text = Ret html s -> exists ns, numbered T ns s.
Proof.
  intros HK Hc H.
  assert (forall s v s', rekey_op s = Ret v s' -> numbers_step T s s') as Hrk.
  { intros s1 v s2 H1. apply rekey_eq in H1 as (a & b & ->). apply numbers_same; reflexivity. }
  pose proof (parse_keeps W T _ (steps_numbers W T) HK fuel c text Hrk Hc) as P. rewrite H in P.
  destruct P as (_ & _ & P). apply P. exists []. split; [reflexivity|]. split; [constructor|]. split; [constructor|reflexivity].
Qed.
(** The keys of the fragments are different texts. *)
Lemma numbered_keys T ns s : numbered T ns s -> NoDup (map fst (ps_shelf s)).
Proof.
  intros (H1 & H2 & _). rewrite H1. clear H1. induction ns as [|x l IH]; cbn; [constructor|].
  cbn in H2. inversion H2 as [|x0 l0 Hx Hl]; subst. constructor; [|auto].
  intros H. apply in_map_iff in H as (y & Hy & Hin). apply fragment_token_inj in Hy. subst. apply Hx. apply in_or_app. auto.
Qed.

(** ** Span depth *)
Lemma steps_depth W T : steps W T (fun s s' => ps_span_depth s' = ps_span_depth s).
Proof.
  split; try reflexivity.
  - intros. congruence.
  - intros s s1 H. cbn [ps_span_depth set_span_depth] in *. lia.
  - intros s id v s' H. apply footnote_same in H. tauto.
  - intros s id v s' H. apply noteref_same in H. tauto.
  - intros s label v s' H. apply declare_eq in H as [-> | [_ ->]]; reflexivity.
  - intros s label c l a v s' H. apply define_eq in H as [-> | (nt & nt' & _ & _ & _ & ->)]; reflexivity.
Qed.

(** ** Requests *)
Definition asks (W : world) (T : textile) (s s' : pstate) : Prop :=
  exists l, ps_http s' = ps_http s ++ l /\ Forall (fun url => t_get_sizes T = true /\ requestable W T url) l.
Lemma asks_same W T s s' : ps_http s' = ps_http s -> asks W T s s'.
Proof. intros H. exists []. rewrite app_nil_r. auto. Qed.
Lemma valid_requestable W T url : is_valid_url W T url = true -> is_relative (url_parse W url) = false -> requestable W T url.
Proof.
  unfold is_valid_url, url_parse, requestable. destruct (w_parse W url) as [[scheme rest]|].
  - cbn [url_scheme is_relative]. intros H _. exists scheme, rest. split; [auto|]. destruct scheme as [|x scheme]; [auto|right].
    cbn [is_empty] in H. unfold scheme_allowed, in_list in H. apply existsb_exists in H as (y & Hy & He). apply seqb_eq in He. subst y.
    unfold allowed_schemes in Hy. destruct (t_restricted T); exact Hy.
  - intros _. assert (forall x b, make_relative_url W x = Some b -> is_relative b = true) as P.
    { intros x b. unfold make_relative_url. destruct (w_join W x); [|discriminate]. intros H. inversion H. reflexivity. }
    destruct (make_relative_url W url) eqn:E; [apply P in E; congruence|].
    destruct (make_relative_url W (percent_encode url)) eqn:E2; [apply P in E2; congruence|]. cbn. discriminate.
Qed.
Lemma steps_asks W T : steps W T (asks W T).
Proof.
  split; try (intros; apply asks_same; reflexivity).
  - intros s1 s2 s3 (l1 & H1 & H2) (l2 & H3 & H4). exists (l1 ++ l2). rewrite H3, H1, app_assoc. split; [auto|].
    apply Forall_app. auto.
  - intros s url H1 H2 H3. exists [url]. split; [reflexivity|]. constructor; [|constructor]. split; [auto|apply valid_requestable; auto].
  - intros s s1 H. exact H.
  - intros s id v s' H. apply asks_same. apply footnote_same in H. tauto.
  - intros s id v s' H. apply asks_same. apply noteref_same in H. tauto.
  - intros s label v s' H. apply declare_eq in H as [-> | [_ ->]]; apply asks_same; reflexivity.
  - intros s label c l a v s' H. apply define_eq in H as [-> | (nt & nt' & _ & _ & _ & ->)]; apply asks_same; reflexivity.
Qed.
Lemma parse_asks W T fuel c text html s : known (t_uid T) -> cache_ok c -> parse W T fuel c text = Ret html s ->
  Forall (fun url => t_get_sizes T = true /\ requestable W T url) (ps_http s).
Proof.
  intros HK Hc H.
  assert (forall s v s', rekey_op s = Ret v s' -> asks W T s s') as Hrk.
  { intros s1 v s2 H1. apply rekey_eq in H1 as (a & b & ->). apply asks_same; reflexivity. }
  pose proof (parse_keeps W T _ (steps_asks W T) HK fuel c text Hrk Hc) as P. rewrite H in P.
  destruct P as (_ & _ & (l & H1 & H2)). cbn in H1. rewrite H1. exact H2.
Qed.

(** ** Footnotes *)
Definition footnotes_step (T : textile) (s s' : pstate) : Prop :=
  ps_link_index s <= ps_link_index s' /\
  (footnotes_ok T s -> footnotes_ok T s' /\ exists l, ps_footnotes s' = ps_footnotes s ++ l).
Lemma footnotes_same T s s' : ps_footnotes s' = ps_footnotes s -> ps_link_index s <= ps_link_index s' -> footnotes_step T s s'.
Proof.
  intros H1 H2. split; [auto|]. intros (H3 & H4 & H5). split; [|exists []; rewrite app_nil_r; auto].
  unfold footnotes_ok. rewrite H1. split; [auto|split; [auto|]]. eapply Forall_impl; [|exact H5].
  cbn. intros id (i & Hi & He). exists i. split; [lia|auto].
Qed.
Lemma new_footnote T s id : assoc id (ps_footnotes s) = None -> footnotes_ok T s ->
  footnotes_ok T (set_footnotes (im_insert id (t_link_prefix T ++ dec (ps_link_index s + 1)) (ps_footnotes s)) (set_link_index (ps_link_index s + 1) s))
  /\ im_insert id (t_link_prefix T ++ dec (ps_link_index s + 1)) (ps_footnotes s) = ps_footnotes s ++ [(id, t_link_prefix T ++ dec (ps_link_index s + 1))].
Proof.
  intros E (H1 & H2 & H3).
  assert (~ In id (map fst (ps_footnotes s))) as Hk.
  { intros H. clear - E H. induction (ps_footnotes s) as [|[k v] l IH]; [contradiction|]. cbn in *.
    destruct (seqb k id) eqn:E1; [discriminate|]. destruct H as [H|H]; [subst; rewrite seqb_refl in E1; discriminate|auto]. }
  assert (~ In (t_link_prefix T ++ dec (ps_link_index s + 1)) (map snd (ps_footnotes s))) as Hv.
  { intros H. rewrite Forall_forall in H3. apply H3 in H as (i & Hi & He). apply app_inv_head in He. apply dec_inj in He. lia. }
  rewrite (im_insert_new _ _ _ Hk). split; [|reflexivity].
  unfold footnotes_ok. cbn [ps_footnotes set_footnotes set_link_index ps_link_index]. rewrite !map_app. cbn [map fst snd].
  assert (forall (l : list str) x, NoDup l -> ~ In x l -> NoDup (l ++ [x])) as Hn.
  { intros l x Hl Hx. eapply Permutation_NoDup; [apply Permutation_cons_append|]. constructor; auto. }
  split; [apply Hn; auto|split; [apply Hn; auto|]].
  apply Forall_app. split.
  - eapply Forall_impl; [|exact H3]. cbn. intros x (i & Hi & He). exists i. split; [lia|auto].
  - constructor; [|constructor]. exists (ps_link_index s + 1). split; [lia|auto].
Qed.
Lemma footnote_eq T id s v s' : footnote_op T id s = Ret v s' ->
  (exists fn, assoc id (ps_footnotes s) = Some fn /\ v = ([(u "class", u "footnote")], fn) /\ s' = s) \/
  (assoc id (ps_footnotes s) = None /\
   v = ([(u "class", u "footnote"); (u "id", u "fnrev" ++ t_link_prefix T ++ dec (ps_link_index s + 1))], t_link_prefix T ++ dec (ps_link_index s + 1)) /\
   s' = set_footnotes (im_insert id (t_link_prefix T ++ dec (ps_link_index s + 1)) (ps_footnotes s)) (set_link_index (ps_link_index s + 1) s)).
Proof.
  unfold footnote_op, bind at 1, get at 1. unfold has_key at 1. destruct (assoc id (ps_footnotes s)) as [fn|] eqn:E.
  - unfold bind, ret, get. rewrite E. unfold of_opt, ret. intros H. injection H as H H1. left. exists fn. auto.
  - unfold bind. rewrite new_id_eq. unfold modify, ret, get. cbn [ps_footnotes set_footnotes set_link_index].
    rewrite assoc_im. unfold of_opt, ret. intros H. injection H as H H1. right. split; [auto|split; [symmetry; exact H|symmetry; exact H1]].
Qed.
Lemma steps_footnotes W T : steps W T (footnotes_step T).
Proof.
  split; try (intros; apply footnotes_same; [reflexivity|cbn; lia]).
  - intros s1 s2 s3 (H1 & H2) (H3 & H4). split; [lia|]. intros H. destruct (H2 H) as (H5 & l1 & H6). destruct (H4 H5) as (H7 & l2 & H8).
    split; [auto|]. exists (l1 ++ l2). rewrite H8, H6, app_assoc. auto.
  - intros s s1 H. exact H.
  - intros s id v s' H. apply footnote_eq in H as [(fn & E & _ & ->) | (E & _ & ->)].
    + apply footnotes_same; [reflexivity|lia].
    + split; [cbn; lia|]. intros Hok. destruct (new_footnote T s id E Hok) as [H1 H2]. split; [exact H1|].
      cbn [ps_footnotes set_footnotes]. rewrite H2. eexists; reflexivity.
  - intros s id v s' H. apply noteref_same in H. apply footnotes_same; [tauto|lia].
  - intros s label v s' H. apply declare_eq in H as [-> | [_ ->]]; apply footnotes_same; cbn; auto; lia.
  - intros s label c l a v s' H. apply define_eq in H as [-> | (nt & nt' & _ & _ & _ & ->)]; apply footnotes_same; cbn; auto; lia.
Qed.

(** ** Notes *)
Lemma assoc_bt_other {A} k k2 (v : A) l : k2 <> k -> assoc k2 (bt_insert k v l) = assoc k2 l.
Proof.
  intros H. induction l as [|[k' v'] l IH]; cbn [bt_insert assoc]; [rewrite (seqb_neq k k2); auto|].
  destruct (str_cmp k k') eqn:E; cbn [assoc].
  - apply str_cmp_eq in E. subst k'. rewrite (seqb_neq k k2); auto.
  - rewrite (seqb_neq k k2); auto.
  - rewrite IH. auto.
Qed.
Definition note_num (label : str) (s : pstate) : option str :=
  match assoc label (ps_notes s) with Some n => n_seq n | None => None end.
(** [notes_ok] by numbers. *)
Lemma notes_ok_num order s : notes_ok order s <->
  NoDup order /\ ps_note_index s = 1 + N.of_nat (List.length order) /\
  (forall k label, nth_error order k = Some label -> note_num label s = Some (dec (1 + N.of_nat k))) /\
  (forall label num, note_num label s = Some num -> exists k, nth_error order k = Some label /\ num = dec (1 + N.of_nat k)).
Proof.
  unfold notes_ok, note_num. split; intros (H1 & H2 & H3 & H4); (split; [auto|split; [auto|split]]).
  - intros k label H. destruct (H3 _ _ H) as (nt & -> & H5). auto.
  - intros label num H. destruct (assoc label (ps_notes s)) as [nt|] eqn:E; [|discriminate]. eapply H4; eauto.
  - intros k label H. apply H3 in H. destruct (assoc label (ps_notes s)) as [nt|] eqn:E; [|discriminate]. eauto.
  - intros label nt num E H. apply H4. rewrite E. auto.
Qed.
Lemma notes_ok_same order s s' : (forall label, note_num label s' = note_num label s) -> ps_note_index s' = ps_note_index s ->
  notes_ok order s -> notes_ok order s'.
Proof.
  intros H1 H2 H. apply notes_ok_num in H as (H3 & H4 & H5 & H6). apply notes_ok_num.
  split; [auto|split; [congruence|split]]; intros; rewrite H1 in *; auto.
Qed.
Lemma note_num_insert label nt s s1 : n_seq nt = note_num label s -> ps_notes s1 = bt_insert label nt (ps_notes s) ->
  forall l, note_num l s1 = note_num l s.
Proof.
  intros H1 H2 l. unfold note_num at 1. rewrite H2.
  destruct (list_eq_dec N.eq_dec l label) as [-> | n]; [rewrite assoc_bt; auto|rewrite assoc_bt_other by auto; reflexivity].
Qed.
Lemma nth_snoc {A} (l : list A) x k y : nth_error (l ++ [x]) k = Some y -> nth_error l k = Some y \/ (k = List.length l /\ y = x).
Proof.
  intros H. destruct (Nat.lt_ge_cases k (List.length l)) as [Hk|Hk].
  - rewrite nth_error_app1 in H; auto.
  - rewrite nth_error_app2 in H by auto. destruct (k - List.length l)%nat eqn:E; cbn in H; [|destruct n; discriminate].
    right. split; [lia|congruence].
Qed.
Lemma note_before_ok order label s : notes_ok order s ->
  exists k, nth_error (if in_list label order then order else order ++ [label]) k = Some label /\
  note_num label (note_before label s) = Some (dec (1 + N.of_nat k)) /\
  notes_ok (if in_list label order then order else order ++ [label]) (note_before label s).
Proof.
  intros Hok. pose proof Hok as Hok0. apply notes_ok_num in Hok as (H1 & H2 & H3 & H4). unfold note_before. fold (note_num label s).
  destruct (note_num label s) as [num|] eqn:E.
  - destruct (H4 _ _ E) as (k & Hk & He). assert (in_list label order = true) as ->.
    { unfold in_list. apply existsb_exists. exists label. split; [eapply nth_error_In; eauto|apply seqb_refl]. }
    exists k. subst num. auto.
  - assert (~ In label order) as Hnin.
    { intros H. apply In_nth_error in H as [k Hk]. apply H3 in Hk. congruence. }
    assert (in_list label order = false) as ->.
    { unfold in_list. destruct (existsb (seqb label) order) eqn:Ex; auto. apply existsb_exists in Ex as (y & Hy & He).
      apply seqb_eq in He. subst. contradiction. }
    set (s1 := set_note_index _ _).
    assert (forall l, note_num l s1 = if seqb label l then Some (dec (ps_note_index s)) else note_num l s) as Hnum.
    { intros l. unfold note_num at 1, s1. cbn [ps_notes set_notes set_note_index].
      destruct (seqb label l) eqn:El; [apply seqb_eq in El; subst l; rewrite assoc_bt; reflexivity|].
      rewrite assoc_bt_other; [reflexivity|]. intros ->. rewrite seqb_refl in El. discriminate. }
    exists (List.length order). split; [rewrite nth_error_app2 by lia; rewrite Nat.sub_diag; reflexivity|]. split.
    + rewrite Hnum, seqb_refl, H2. reflexivity.
    + apply notes_ok_num. split; [|split; [|split]].
      * eapply Permutation_NoDup; [apply Permutation_cons_append|]. constructor; auto.
      * rewrite app_length. unfold s1. cbn [ps_note_index set_note_index List.length]. lia.
      * intros k l Hk. rewrite Hnum. apply nth_snoc in Hk as [Hk | [Hk ->]].
        -- rewrite seqb_neq; [auto|]. intros ->. apply Hnin. eapply nth_error_In; eauto.
        -- rewrite seqb_refl, H2, Hk. reflexivity.
      * intros l num Hl. rewrite Hnum in Hl. destruct (seqb label l) eqn:El.
        -- apply seqb_eq in El. subst l. exists (List.length order). split; [rewrite nth_error_app2 by lia; rewrite Nat.sub_diag; reflexivity|].
           rewrite <- H2. congruence.
        -- destruct (H4 _ _ Hl) as (k & Hk & He). exists k. split; [|auto]. rewrite nth_error_app1; auto. apply nth_error_Some. congruence.
Qed.
Lemma noteref_ok T order label s num refid id s' : notes_ok order s -> noteref_op T label s = Ret (num, refid, id) s' ->
  exists k, nth_error (if in_list label order then order else order ++ [label]) k = Some label /\ num = dec (1 + N.of_nat k) /\
  notes_ok (if in_list label order then order else order ++ [label]) s'.
Proof.
  intros Hok H. destruct (note_before_ok order label s Hok) as (k & Hk & Hn & Hok1).
  apply noteref_eq in H as (nt & E1 & E2 & _ & nt' & E3 & _ & H).
  assert (note_num label (note_before label s) = Some num) as E4 by (unfold note_num; rewrite E1; auto).
  exists k. split; [auto|]. split; [congruence|].
  assert (ps_notes s' = bt_insert label nt' (ps_notes (note_before label s)) /\ ps_note_index s' = ps_note_index (note_before label s)) as [H1 H2].
  { destruct H as [-> | ->]; auto. }
  eapply notes_ok_same; [|exact H2|exact Hok1]. eapply note_num_insert; [|exact H1]. congruence.
Qed.
Definition notes_step (s s' : pstate) : Prop :=
  forall order, notes_ok order s -> exists more, notes_ok (order ++ more) s'.
Lemma notes_same s s' : (forall label, note_num label s' = note_num label s) -> ps_note_index s' = ps_note_index s -> notes_step s s'.
Proof. intros H1 H2 order H. exists []. rewrite app_nil_r. eapply notes_ok_same; eauto. Qed.
Lemma steps_notes W T : steps W T notes_step.
Proof.
  split; try (intros; apply notes_same; reflexivity).
  - intros s1 s2 s3 H1 H2 order H. destruct (H1 _ H) as (m1 & H3). destruct (H2 _ H3) as (m2 & H4). exists (m1 ++ m2). rewrite app_assoc. auto.
  - intros s s1 H order Ho. apply H. exact Ho.
  - intros s id v s' H. apply footnote_same in H as (_ & _ & _ & H1 & H2 & _). apply notes_same; [|auto]. intros. unfold note_num. rewrite H1. auto.
  - intros s label [[num refid] id] s' H order Ho. destruct (noteref_ok _ _ _ _ _ _ _ _ Ho H) as (k & _ & _ & H1).
    destruct (in_list label order); [exists []; rewrite app_nil_r; auto|exists [label]; auto].
  - intros s label v s' H. apply declare_eq in H as [-> | [Hk ->]]; [apply notes_same; reflexivity|].
    apply notes_same; [|reflexivity]. eapply note_num_insert; [|reflexivity]. cbn [n_seq].
    unfold has_key in Hk. unfold note_num. destruct (assoc label (ps_notes s)); [discriminate|reflexivity].
  - intros s label c l a v s' H. apply define_eq in H as [-> | (nt & nt' & Hn & Hs & _ & ->)]; [apply notes_same; reflexivity|].
    apply notes_same; [|reflexivity]. eapply note_num_insert; [|reflexivity]. unfold note_num. rewrite Hn. auto.
Qed.
End Known.
