(** Logics over the parser state: a preorder on states kept by every step, and no
    panic other than those a document can cause. *)
From Coq Require Import ZArith.
From Verif Require Import Str Unicode Regex RegexParse RegexSnips RegexTheory RegexGroups Lib ModelBase ModelHtml ModelUrl
  ModelAttrs ModelInline ModelParser ProofAttrs Logic ProofWalk.

(** ** The pattern cache *)
(** The pattern that belongs to a cache entry. *)
Definition expected (uid : str) (line : N) (tag : str) : option rx :=
  if line =? 1060 then tag_br_re tag
  else if negb (is_empty tag) then None
  else if line =? 413 then url_token_re uid
  else if line =? 1608 then ospan_token_re uid
  else if line =? 1619 then cspan_token_re uid
  else if line =? 1266 then link_re uid
  else None.
Definition cache_ok {K : uids} (c : cache) : Prop :=
  forall line tag r, cache_find line tag c = Some r -> exists uid, known uid /\ expected uid line tag = Some r.

Lemma cache_ok_nil {K : uids} : cache_ok [].
Proof. intros line tag r H. discriminate. Qed.
Lemma cache_find_app line tag c l t r : cache_find line tag (c ++ [((l, t), r)]) =
  match cache_find line tag c with
  | Some x => Some x
  | None => if (l =? line) && seqb t tag then Some r else None
  end.
Proof.
  induction c as [|[[l' t'] r'] c IH]; cbn [app cache_find]; [reflexivity|].
  destruct ((l' =? line) && seqb t' tag); auto.
Qed.
Lemma cache_ok_add {K : uids} c line tag uid r : cache_ok c -> known uid -> expected uid line tag = Some r -> cache_ok (c ++ [((line, tag), r)]).
Proof.
  intros Hc Hk He l t x H. rewrite cache_find_app in H. destruct (cache_find l t c) eqn:E.
  - inversion H; subst. apply Hc. exact E.
  - destruct ((line =? l) && seqb tag t) eqn:E2; [|discriminate]. apply andb_true_iff in E2 as [E2 E3].
    apply N.eqb_eq in E2. apply seqb_eq in E3. subst. inversion H; subst. eauto.
Qed.
Lemma cached_expected uid line tag pat : cached_key line tag pat -> expected uid line tag = pat uid.
Proof. intros [H|[H|[H|[H|H]]]]; inversion H; subst; reflexivity. Qed.

(** ** Associations *)
Lemma str_cmp_refl a : str_cmp a a = Eq.
Proof. induction a as [|x a IH]; cbn; auto. rewrite N.compare_refl. auto. Qed.
Lemma str_cmp_eq a : forall b, str_cmp a b = Eq -> a = b.
Proof.
  induction a as [|x a IH]; intros [|y b]; cbn; try discriminate; auto.
  destruct (N.compare_spec x y); try discriminate. intros H1. subst. f_equal. auto.
Qed.
Lemma seqb_refl a : seqb a a = true.
Proof. apply seqb_eq. reflexivity. Qed.
Lemma seqb_neq a b : a <> b -> seqb a b = false.
Proof. intros H. destruct (seqb a b) eqn:E; auto. apply seqb_eq in E. contradiction. Qed.
Lemma assoc_bt {A} k (v : A) l : assoc k (bt_insert k v l) = Some v.
Proof.
  induction l as [|[k' v'] l IH]; cbn [bt_insert assoc]; [rewrite seqb_refl; auto|].
  destruct (str_cmp k k') eqn:E; cbn [assoc]; try (rewrite seqb_refl; auto).
  rewrite (seqb_neq k' k); auto. intros ->. rewrite str_cmp_refl in E. discriminate.
Qed.
Lemma assoc_im {A} k (v : A) l : assoc k (im_insert k v l) = Some v.
Proof.
  induction l as [|[k' v'] l IH]; cbn [im_insert assoc]; [rewrite seqb_refl; auto|].
  destruct (seqb k' k) eqn:E; cbn [assoc]; [rewrite seqb_refl; auto|]. rewrite E. auto.
Qed.
Lemma assoc_im_other {A} k k2 (v : A) l : k2 <> k -> assoc k2 (im_insert k v l) = assoc k2 l.
Proof.
  intros H. induction l as [|[k' v'] l IH]; cbn [im_insert assoc]; [rewrite (seqb_neq k k2); auto|].
  destruct (seqb k' k) eqn:E; cbn [assoc].
  - apply seqb_eq in E. subst. rewrite (seqb_neq k k2); auto.
  - destruct (seqb k' k2); auto.
Qed.

(** ** Steps *)
Record steps (W : world) (T : textile) (R : pstate -> pstate -> Prop) : Prop := mk_steps {
  r_refl : forall s, R s s;
  r_trans : forall s1 s2 s3, R s1 s2 -> R s2 s3 -> R s1 s3;
  r_cache : forall s c, R s (set_cache c s);
  r_borrow : forall s b, R s (set_borrowed b s);
  r_shelve : forall s t, R s (set_shelf (im_insert (t_uid T ++ dec (ps_ref_index s + 1) ++ u ":shelve") t (ps_shelf s))
                               (set_ref_index (ps_ref_index s + 1) s));
  r_ref : forall s t, R s (set_ref_cache (nm_insert (ps_ref_index s + 1) t (ps_ref_cache s))
                            (set_ref_index (ps_ref_index s + 1) s));
  r_link : forall s, R s (set_link_index (ps_link_index s + 1) s);
  r_urlref : forall s flag url, R s (set_urlrefs (im_insert flag (Raw url) (ps_urlrefs s)) s);
  r_http : forall s url, t_get_sizes T = true -> is_valid_url W T url = true -> is_relative (url_parse W url) = false ->
    R s (set_http (ps_http s ++ [url]) s);
  r_ol : forall s tl v, R s (set_ol_starts (im_insert tl v (ps_ol_starts s)) s);
  r_nl : forall s i r, R s (set_nl_cache (im_insert i r (ps_nl_cache s)) s);
  r_span : forall s s1, R (set_span_depth (ps_span_depth s + 1) s) s1 -> R s (set_span_depth (ps_span_depth s1 - 1) s1);
  r_footnote : forall s id v s', footnote_op T id s = Ret v s' -> R s s';
  r_noteref : forall s label v s', noteref_op T label s = Ret v s' -> R s s';
  r_declare : forall s label v s', declare_op T label s = Ret v s' -> R s s';
  r_define : forall s label c l a v s', define_op label c l a s = Ret v s' -> R s s'
}.
(** The same without definitions of notes, which occur in no piece of text. *)
Record graf_steps (W : world) (T : textile) (R : pstate -> pstate -> Prop) : Prop := mk_graf_steps {
  g_refl : forall s, R s s;
  g_trans : forall s1 s2 s3, R s1 s2 -> R s2 s3 -> R s1 s3;
  g_cache : forall s c, R s (set_cache c s);
  g_borrow : forall s b, R s (set_borrowed b s);
  g_shelve : forall s t, R s (set_shelf (im_insert (t_uid T ++ dec (ps_ref_index s + 1) ++ u ":shelve") t (ps_shelf s))
                               (set_ref_index (ps_ref_index s + 1) s));
  g_ref : forall s t, R s (set_ref_cache (nm_insert (ps_ref_index s + 1) t (ps_ref_cache s))
                            (set_ref_index (ps_ref_index s + 1) s));
  g_link : forall s, R s (set_link_index (ps_link_index s + 1) s);
  g_urlref : forall s flag url, R s (set_urlrefs (im_insert flag (Raw url) (ps_urlrefs s)) s);
  g_http : forall s url, t_get_sizes T = true -> is_valid_url W T url = true -> is_relative (url_parse W url) = false ->
    R s (set_http (ps_http s ++ [url]) s);
  g_ol : forall s tl v, R s (set_ol_starts (im_insert tl v (ps_ol_starts s)) s);
  g_nl : forall s i r, R s (set_nl_cache (im_insert i r (ps_nl_cache s)) s);
  g_span : forall s s1, R (set_span_depth (ps_span_depth s + 1) s) s1 -> R s (set_span_depth (ps_span_depth s1 - 1) s1);
  g_footnote : forall s id v s', footnote_op T id s = Ret v s' -> R s s';
  g_noteref : forall s label v s', noteref_op T label s = Ret v s' -> R s s'
}.
Lemma steps_graf W T R : steps W T R -> graf_steps W T R.
Proof. intros []. split; auto. Qed.
Coercion steps_graf : steps >-> graf_steps.

(** What [m] keeps while the cache is borrowed ([b = true]) or free ([b = false]). *)
Definition keeps {K : uids} (T : textile) (R : pstate -> pstate -> Prop) (b : bool) (A : Type) (m : M A) : Prop :=
  forall s, ps_borrowed s = b -> cache_ok (ps_cache s) ->
    match m s with
    | Ret _ s' => ps_borrowed s' = b /\ cache_ok (ps_cache s') /\ R s s'
    | Panic p => bad T p
    | Diverge => True
    end.

Section Keeps.
Context {K : uids}.
Variables (W : world) (T : textile) (R : pstate -> pstate -> Prop).
Hypothesis HS : graf_steps W T R.
Hypothesis HK : known (t_uid T).

Lemma keeps_step b A (m : M A) : (forall s, exists a s', m s = Ret a s' /\ ps_borrowed s' = ps_borrowed s /\ ps_cache s' = ps_cache s /\ R s s') ->
  keeps T R b A m.
Proof. intros H s Hb Hc. destruct (H s) as (a & s' & -> & H1 & H2 & H3). rewrite H1, H2. auto. Qed.
Lemma new_id_eq s : new_id T s = Ret (t_link_prefix T ++ dec (ps_link_index s + 1)) (set_link_index (ps_link_index s + 1) s).
Proof. reflexivity. Qed.

Lemma shelve_eq t s : shelve T t s = Ret (t_uid T ++ dec (ps_ref_index s + 1) ++ u ":shelve")
  (set_shelf (im_insert (t_uid T ++ dec (ps_ref_index s + 1) ++ u ":shelve") t (ps_shelf s)) (set_ref_index (ps_ref_index s + 1) s)).
Proof. reflexivity. Qed.
Lemma shelve_url_eq x s : shelve_url W T x s = Ret (t_uid T ++ dec (ps_ref_index s + 1) ++ u ":url")
  (set_ref_cache (nm_insert (ps_ref_index s + 1) (us_to_html_string W x) (ps_ref_cache s)) (set_ref_index (ps_ref_index s + 1) s)).
Proof. reflexivity. Qed.
Definition after_ref (t : str) (s : pstate) : pstate :=
  set_ref_cache (nm_insert (ps_ref_index s + 1) t (ps_ref_cache s)) (set_ref_index (ps_ref_index s + 1) s).
Lemma store_tags_eq x y s : store_tags T x y s =
  Ret (t_uid T ++ dec (ps_ref_index s + 1) ++ u ":ospan ", u " " ++ t_uid T ++ dec (ps_ref_index s + 1 + 1) ++ u ":cspan")
      (after_ref y (after_ref x s)).
Proof. reflexivity. Qed.

Lemma footnote_total id s : exists v s', footnote_op T id s = Ret v s' /\ ps_borrowed s' = ps_borrowed s /\ ps_cache s' = ps_cache s.
Proof.
  unfold footnote_op, bind at 1, get at 1. unfold has_key at 1. destruct (assoc id (ps_footnotes s)) eqn:E.
  - unfold bind, ret, get. rewrite E. cbn. eauto.
  - unfold bind. rewrite new_id_eq. unfold modify, ret, get. cbn [ps_footnotes set_footnotes set_link_index].
    rewrite assoc_im. cbn. eauto.
Qed.
Lemma noteref_total label s : exists v s', noteref_op T label s = Ret v s' /\ ps_borrowed s' = ps_borrowed s /\ ps_cache s' = ps_cache s.
Proof.
  unfold noteref_op, bind at 1, get at 1.
  assert (forall (num : str) s1 nt, assoc label (ps_notes s1) = Some nt -> ps_borrowed s1 = ps_borrowed s -> ps_cache s1 = ps_cache s ->
    exists v s', (refid <- new_id T ;;
      s <- get ;;
      nt <- of_opt MissingKey (assoc label (ps_notes s)) ;;
      id <- (if is_empty (n_id nt) then new_id T else ret []) ;;
      modify (fun s => set_notes
        (bt_insert label (mk_note (if is_empty (n_id nt) then id else n_id nt)
                              (n_content nt) (n_link nt) (n_attrs nt) (n_seq nt)
                              (n_refids nt ++ [refid])) (ps_notes s)) s) ;;;
      ret (num, refid, id)) s1 = Ret v s' /\ ps_borrowed s' = ps_borrowed s /\ ps_cache s' = ps_cache s) as P.
  { intros num s1 nt Hn H1 H2. unfold bind. rewrite new_id_eq. unfold get. cbn [ps_notes set_link_index]. rewrite Hn. cbn [of_opt].
    unfold ret at 1. destruct (is_empty (n_id nt)); [rewrite new_id_eq|]; unfold ret, modify; eexists; eexists; split; try reflexivity; auto. }
  destruct (assoc label (ps_notes s)) as [nt|] eqn:E; [destruct (n_seq nt) as [num|] eqn:E2|].
  - apply (P num s nt); auto.
  - cbv zeta. unfold bind at 1 2, modify at 1, ret at 1. eapply P; [apply assoc_bt|reflexivity|reflexivity].
  - cbv zeta. unfold bind at 1 2, modify at 1, ret at 1. eapply P; [apply assoc_bt|reflexivity|reflexivity].
Qed.

Lemma keeps_ops b : ops W T (keeps T R b).
Proof.
  split.
  - intros A a s Hb Hc. cbn. split; [auto|split; [auto|apply (g_refl _ _ _ HS)]].
  - intros A B m k Hm Hk s Hb Hc. unfold bind. specialize (Hm s Hb Hc). destruct (m s) as [a s1| |]; auto.
    destruct Hm as (H1 & H2 & H3). specialize (Hk a s1 H1 H2). destruct (k a s1) as [c s2| |]; auto.
    destruct Hk as (H4 & H5 & H6). split; [auto|split; [auto|eapply (g_trans _ _ _ HS); eauto]].
  - intros A m m' He Hm s Hb Hc. rewrite He. apply Hm; auto.
  - intros A p Hp s Hb Hc. exact Hp.
  - intros A s Hb Hc. exact I.
  - intros A k _ Hk s Hb Hc. apply (Hk s s Hb Hc).
  - intros t. apply keeps_step. intros s. rewrite shelve_eq. eexists; eexists; split; [reflexivity|].
    split; [reflexivity|split; [reflexivity|apply (g_shelve _ _ _ HS)]].
  - intros x. apply keeps_step. intros s. rewrite shelve_url_eq. eexists; eexists; split; [reflexivity|].
    split; [reflexivity|split; [reflexivity|apply (g_ref _ _ _ HS)]].
  - intros x y. apply keeps_step. intros s. rewrite store_tags_eq. eexists; eexists; split; [reflexivity|].
    split; [reflexivity|split; [reflexivity|]]. eapply (g_trans _ _ _ HS); [apply (g_ref _ _ _ HS _ x)|apply (g_ref _ _ _ HS _ y)].
  - apply keeps_step. intros s. rewrite new_id_eq. eexists; eexists; split; [reflexivity|].
    split; [reflexivity|split; [reflexivity|apply (g_link _ _ _ HS)]].
  - intros. apply keeps_step. intros s. eexists; eexists; split; [reflexivity|].
    split; [reflexivity|split; [reflexivity|apply (g_urlref _ _ _ HS)]].
  - intros url H1 H2 H3. apply keeps_step. intros s. eexists; eexists; split; [reflexivity|].
    split; [reflexivity|split; [reflexivity|apply (g_http _ _ _ HS); auto]].
  - intros. apply keeps_step. intros s. eexists; eexists; split; [reflexivity|].
    split; [reflexivity|split; [reflexivity|apply (g_ol _ _ _ HS)]].
  - intros. apply keeps_step. intros s. eexists; eexists; split; [reflexivity|].
    split; [reflexivity|split; [reflexivity|apply (g_nl _ _ _ HS)]].
  - intros text body Hbody s Hb Hc. unfold span_bracket, bind, modify, get, ret. cbn [ps_span_depth set_span_depth].
    destruct (ps_span_depth s + 1 <=? t_max_span_depth T).
    + specialize (Hbody (set_span_depth (ps_span_depth s + 1) s) Hb Hc). destruct (body _) as [t s1| |]; auto.
      destruct Hbody as (H1 & H2 & H3). split; [exact H1|split; [exact H2|apply (g_span _ _ _ HS); exact H3]].
    + split; [exact Hb|split; [exact Hc|]].
      apply (g_span _ _ _ HS s (set_span_depth (ps_span_depth s + 1) s)). apply (g_refl _ _ _ HS).
  - intros id. apply keeps_step. intros s. destruct (footnote_total id s) as (v & s' & H & H1 & H2). exists v, s'.
    split; [auto|split; [auto|split; [auto|eapply (g_footnote _ _ _ HS); eauto]]].
  - intros id. apply keeps_step. intros s. destruct (noteref_total id s) as (v & s' & H & H1 & H2). exists v, s'.
    split; [auto|split; [auto|split; [auto|eapply (g_noteref _ _ _ HS); eauto]]].
Qed.

Lemma keeps_rekey b : (forall s v s', rekey_op s = Ret v s' -> R s s') -> keeps T R b unit rekey_op.
Proof.
  intros Hrk. apply keeps_step. intros s.
  assert (exists s', rekey_op s = Ret tt s' /\ ps_borrowed s' = ps_borrowed s /\ ps_cache s' = ps_cache s) as (s' & H & H1 & H2).
  { unfold rekey_op, modify. destruct (ps_notes s); [eexists; split; [reflexivity|auto]|].
    destruct (fold_left rekey _ _). eexists; split; [reflexivity|auto]. }
  exists tt, s'. split; [auto|split; [auto|split; [auto|eapply Hrk; eauto]]].
Qed.

Lemma cached_eq line tag mk s : cached line tag mk s =
  match cache_find line tag (ps_cache s) with
  | Some r => Ret r s
  | None => match mk with Some r => Ret r (set_cache (ps_cache s ++ [((line, tag), r)]) s) | None => Panic BadRegex end
  end.
Proof. unfold cached, bind, get. destruct (cache_find line tag (ps_cache s)); [reflexivity|]. destruct mk; reflexivity. Qed.
Lemma keeps_cache : cache_rule T (keeps T R true) (keeps T R false).
Proof.
  intros A B line tag pat body k Hkey Hbody Hnone Hk s Hb Hc.
  unfold with_cache. unfold bind at 1, acquire. unfold bind at 1, get at 1. rewrite Hb. unfold put at 1.
  assert ((pat (t_uid T) = None /\ cached line tag (pat (t_uid T)) (set_borrowed true s) = Panic BadRegex) \/
    exists uid r c, known uid /\ pat uid = Some r /\
    cached line tag (pat (t_uid T)) (set_borrowed true s) = Ret r (set_cache c (set_borrowed true s)) /\ cache_ok c) as P.
  { rewrite cached_eq. cbn [ps_cache set_borrowed]. destruct (cache_find line tag (ps_cache s)) as [x|] eqn:E.
    - right. destruct (Hc _ _ _ E) as (uid & Hu & He). exists uid, x, (ps_cache s). change (set_cache (ps_cache s) (set_borrowed true s)) with (set_borrowed true s). rewrite (cached_expected _ _ _ _ Hkey) in He.
      split; [auto|split; [auto|split; [reflexivity|auto]]].
    - destruct (pat (t_uid T)) as [r|] eqn:Ep; [right|left; split; reflexivity].
      exists (t_uid T), r, (ps_cache s ++ [((line, tag), r)]). split; [auto|split; [auto|split; [reflexivity|]]].
      eapply cache_ok_add; eauto. rewrite (cached_expected _ _ _ _ Hkey). auto. }
  destruct P as [[P1 P2] | (uid & r & c & Hu & Hp & Hcc & Hok)].
  { unfold bind at 1. rewrite P2. auto. }
  specialize (Hbody uid r Hu Hp).
  unfold bind at 1. rewrite Hcc. unfold bind at 1.
  specialize (Hbody (set_cache c (set_borrowed true s)) eq_refl Hok).
  destruct (body r (set_cache c (set_borrowed true s))) as [x s1| |]; auto.
  destruct Hbody as (H1 & H2 & H3). unfold bind, release, modify.
  specialize (Hk x (set_borrowed false s1) eq_refl H2). destruct (k x (set_borrowed false s1)) as [y s2| |]; auto.
  destruct Hk as (H4 & H5 & H6). split; [auto|split; [auto|]].
  eapply (g_trans _ _ _ HS); [|exact H6].
  eapply (g_trans _ _ _ HS); [|apply (g_borrow _ _ _ HS)].
  eapply (g_trans _ _ _ HS); [|exact H3].
  eapply (g_trans _ _ _ HS); [apply (g_borrow _ _ _ HS _ true)|apply (g_cache _ _ _ HS)].
Qed.

(** The part before the note lists, where the notes are collected. *)
End Keeps.

Section Blocks.
Context {K : uids}.
Variables (W : world) (T : textile) (R : pstate -> pstate -> Prop).
Hypothesis HS : steps W T R.
Hypothesis HK : known (t_uid T).
Lemma keeps_defs b : defs T (keeps T R b).
Proof.
  split.
  - intros label. apply (keeps_step T R). intros s.
    assert (exists s', declare_op T label s = Ret tt s' /\ ps_borrowed s' = ps_borrowed s /\ ps_cache s' = ps_cache s) as (s' & H & H1 & H2).
    { unfold declare_op, bind at 1, get. destruct (has_key label (ps_notes s)); [eexists; split; [reflexivity|auto]|].
      unfold bind. rewrite new_id_eq. eexists; split; [reflexivity|auto]. }
    exists tt, s'. split; [auto|split; [auto|split; [auto|eapply (r_declare _ _ _ HS); eauto]]].
  - intros label c l a. apply (keeps_step T R). intros s.
    assert (exists s', define_op label c l a s = Ret tt s' /\ ps_borrowed s' = ps_borrowed s /\ ps_cache s' = ps_cache s) as (s' & H & H1 & H2).
    { unfold define_op, bind at 1, get. destruct (assoc label (ps_notes s)) as [nt|]; [|eexists; split; [reflexivity|auto]].
      destruct (n_link nt); (eexists; split; [reflexivity|auto]). }
    exists tt, s'. split; [auto|split; [auto|split; [auto|eapply (r_define _ _ _ HS); eauto]]].
Qed.
Theorem block_keeps fuel n text s : ps_borrowed s = false -> cache_ok (ps_cache s) ->
  match block W T (graf_n W T fuel n) text s with
  | Ret _ s' => ps_borrowed s' = false /\ cache_ok (ps_cache s') /\ R s s'
  | Panic p => bad T p
  | Diverge => True
  end.
Proof.
  intros Hb Hc.
  assert (forall t, keeps T R false str (graf_n W T fuel n t)) as Hg
    by (intros t; apply (w_graf W T fuel _ _ (keeps_ops W T R HS true) (keeps_ops W T R HS false) (keeps_cache W T R HS HK) HK)).
  exact (w_block W T _ (keeps_ops W T R HS false) (keeps_defs false) _ Hg text s Hb Hc).
Qed.

Theorem parse_keeps fuel c text : (forall s v s', rekey_op s = Ret v s' -> R s s') -> cache_ok c ->
  match parse W T fuel c text with
  | Ret _ s => ps_borrowed s = false /\ cache_ok (ps_cache s) /\ R (new_state c) s
  | Panic p => bad T p
  | Diverge => True
  end.
Proof.
  intros Hrk Hc. unfold parse.
  exact (walk W T fuel _ _ (keeps_ops W T R HS true) (keeps_ops W T R HS false) (keeps_defs false) (keeps_cache W T R HS HK) HK text (keeps_rekey T R false Hrk) (new_state c) eq_refl Hc).
Qed.
End Blocks.
