(** The outcome of a parse does not depend on what the pattern cache holds, as long as
    it holds the right patterns. *)
From Coq Require Import ZArith.
From Verif Require Import Str Unicode Regex RegexParse RegexSnips Lib ModelBase ModelHtml ModelUrl
  ModelAttrs ModelInline ModelParser Logic ProofWalk ProofState ProofMemory SpecParse SpecState.
#[local] Arguments u : simpl never.

Definition same {K : uids} (A : Type) (m : M A) : Prop :=
  forall s c, cache_ok (ps_cache s) -> cache_ok c ->
  match m s, m (set_cache c s) with
  | Ret a s1, Ret a' s2 => a = a' /\ cache_ok (ps_cache s1) /\ exists c1, cache_ok c1 /\ s2 = set_cache c1 s1
  | Panic p, Panic q => p = q
  | Diverge, Diverge => True
  | _, _ => False
  end.

Section Same.
Variables (W : world) (T : textile).
Let K : uids := fun uid => uid = t_uid T.
#[local] Existing Instance K.

Lemma same_ret A (a : A) : same A (ret a).
Proof. intros s c H1 H2. cbn. split; [auto|split; [auto|]]. exists c. auto. Qed.
Lemma same_bind A B (m : M A) (k : A -> M B) : same A m -> (forall a, same B (k a)) -> same B (bind m k).
Proof.
  intros Hm Hk s c H1 H2. unfold bind. specialize (Hm s c H1 H2).
  destruct (m s) as [a s1| |], (m (set_cache c s)) as [a' s2| |]; try contradiction; auto.
  destruct Hm as (<- & H3 & c1 & H4 & ->). apply Hk; auto.
Qed.
Lemma same_get A (k : pstate -> M A) : (forall s c, k (set_cache c s) = k s) -> (forall s, same A (k s)) -> same A (bind get k).
Proof. intros H1 H2 s c H3 H4. unfold bind, get. rewrite H1. apply H2; auto. Qed.
Lemma same_modify f : (forall s c, f (set_cache c s) = set_cache c (f s)) -> (forall s, ps_cache (f s) = ps_cache s) -> same unit (modify f).
Proof. intros H1 H2 s c H3 H4. unfold modify. rewrite H1, H2. split; [auto|split; [auto|]]. exists c. auto. Qed.
Lemma same_panic A p : same A (panic p).
Proof. intros s c _ _. reflexivity. Qed.
Lemma same_of_opt A p (o : option A) : same A (of_opt p o).
Proof. destruct o; [apply same_ret|apply same_panic]. Qed.
Lemma same_ext A (m m' : M A) : (forall s, m' s = m s) -> same A m -> same A m'.
Proof. intros H Hm s c H1 H2. rewrite !H. apply Hm; auto. Qed.
Lemma same_new_id : same str (new_id T).
Proof. intros s c H1 H2. rewrite !new_id_eq. split; [auto|split; [auto|]]. exists c. auto. Qed.

Ltac sm := first [apply same_modify; intros; reflexivity | apply same_ret | apply same_new_id | apply same_of_opt].
Lemma same_ops : ops W T same.
Proof.
  split.
  - apply same_ret.
  - apply same_bind.
  - apply same_ext.
  - intros. apply same_panic.
  - intros A s c _ _. exact I.
  - apply same_get.
  - intros t s c H1 H2. rewrite !shelve_eq. split; [auto|split; [auto|]]. exists c. auto.
  - intros t s c H1 H2. rewrite !shelve_url_eq. split; [auto|split; [auto|]]. exists c. auto.
  - intros x y s c H1 H2. rewrite !store_tags_eq. split; [auto|split; [auto|]]. exists c. auto.
  - apply same_new_id.
  - intros. sm.
  - intros. sm.
  - intros. sm.
  - intros. sm.
  - intros text body Hb. unfold span_bracket. apply same_bind; [sm|intros _]. apply same_get; [reflexivity|intros s].
    apply same_bind; [destruct (_ <=? _); [exact Hb|sm]|intros t]. apply same_bind; [sm|intros _; sm].
  - intros id. unfold footnote_op. apply same_get; [reflexivity|intros s]. apply same_bind.
    + destruct (has_key _ _); [sm|]. apply same_bind; [sm|intros]. apply same_bind; [sm|intros; sm].
    + intros. apply same_get; [reflexivity|intros s1]. apply same_bind; [sm|intros; sm].
  - intros label. unfold noteref_op. apply same_get; [reflexivity|intros s]. apply same_bind.
    + destruct (match assoc label (ps_notes s) with Some n => n_seq n | None => None end); [sm|]. cbv zeta.
      apply same_bind; [sm|intros; sm].
    + intros num. apply same_bind; [sm|intros refid]. apply same_get; [reflexivity|intros s1]. apply same_bind; [sm|intros nt].
      apply same_bind; [destruct (is_empty _); sm|intros id]. apply same_bind; [sm|intros; sm].
Qed.
Lemma same_defs : defs T same.
Proof.
  split.
  - intros label. unfold declare_op. apply same_get; [reflexivity|intros s]. destruct (has_key _ _); [sm|]. apply same_bind; [sm|intros; sm].
  - intros. unfold define_op. apply same_get; [reflexivity|intros s]. destruct (assoc label (ps_notes s)) as [nt|]; [|sm].
    destruct (n_link nt); sm.
Qed.
Lemma same_rekey : same unit rekey_op.
Proof.
  apply same_modify; intros s; [intros c|]; cbn [ps_notes ps_unref set_cache]; destruct (ps_notes s); try reflexivity;
    destruct (fold_left rekey _ _); reflexivity.
Qed.
Lemma cached_hit line tag r s : cache_ok (ps_cache s) -> expected (t_uid T) line tag = Some r ->
  exists c', cached line tag (Some r) s = Ret r (set_cache c' s) /\ cache_ok c'.
Proof.
  intros Hc He. rewrite cached_eq. destruct (cache_find line tag (ps_cache s)) as [x|] eqn:E.
  - exists (ps_cache s). split; [|auto]. apply Hc in E as (uid & Hu & E). change (uid = t_uid T) in Hu. subst uid.
    assert (x = r) by congruence. subst x. destruct s; reflexivity.
  - exists (ps_cache s ++ [((line, tag), r)]). split; [reflexivity|]. eapply cache_ok_add; eauto. reflexivity.
Qed.
Lemma same_cache : cache_rule T same same.
Proof.
  intros A B line tag pat body k Hkey Hbody _ Hk.
  pose proof (cached_expected (t_uid T) _ _ _ Hkey) as He. unfold with_cache. apply same_bind.
  { intros s c H1 H2. unfold acquire, bind, get. cbn [ps_borrowed set_cache]. destruct (ps_borrowed s); cbn; auto.
    split; [auto|split; [auto|]]. exists c. auto. }
  intros _. destruct (pat (t_uid T)) as [r|] eqn:Ep.
  - assert (same B (x <- body r ;; (release ;;; k x))) as Hr.
    { apply same_bind; [eapply Hbody; [reflexivity|exact Ep]|intros x]. apply same_bind; [sm|intros _; apply Hk]. }
    intros s c H1 H2. destruct (cached_hit line tag r s H1 He) as (c1 & E1 & H3).
    destruct (cached_hit line tag r (set_cache c s) H2 He) as (c2 & E2 & H4).
    assert (forall s1 s2, cached line tag (Some r) s1 = Ret r s2 ->
      (p <- cached line tag (Some r) ;; (x <- body p ;; (release ;;; k x))) s1 = (x <- body r ;; (release ;;; k x)) s2) as P.
    { intros s1 s2 E. unfold bind at 1. rewrite E. reflexivity. }
    rewrite (P _ _ E1), (P _ _ E2). exact (Hr (set_cache c1 s) c2 H3 H4).
  - assert (forall s, cache_ok (ps_cache s) ->
      (p <- cached line tag None ;; (x <- body p ;; (release ;;; k x))) s = Panic BadRegex) as P.
    { intros s Hc. unfold bind at 1. rewrite cached_eq. destruct (cache_find line tag (ps_cache s)) as [x|] eqn:E; [|reflexivity].
      apply Hc in E as (uid & Hu & E). change (uid = t_uid T) in Hu. subst uid. congruence. }
    intros s c H1 H2. rewrite (P s H1), (P (set_cache c s) H2). reflexivity.
Qed.
Theorem parse_same fuel c1 c2 text : cache_ok c1 -> cache_ok c2 ->
  seen (parse W T fuel c1 text) = seen (parse W T fuel c2 text).
Proof.
  intros H1 H2. pose proof (walk W T fuel _ _ same_ops same_ops same_defs same_cache eq_refl text same_rekey (new_state c1) c2 H1 H2) as P.
  unfold parse. change (set_cache c2 (new_state c1)) with (new_state c2) in P.
  destruct (parse_m W T fuel text (new_state c1)) as [a s1| |], (parse_m W T fuel text (new_state c2)) as [a' s2| |];
    try contradiction; cbn [seen]; try congruence. destruct P as (-> & _). reflexivity.
Qed.
End Same.

(** The cache of a value holds patterns of the uids it had. *)
Lemma cache_ok_more (K K' : uids) c : (forall uid, @known K uid -> @known K' uid) -> @cache_ok K c -> @cache_ok K' c.
Proof. intros H Hc line tag r Hf. apply Hc in Hf as (uid & Hu & He). exists uid. auto. Qed.
(** While the uid does not change after a parse, those of the present uid. *)
Lemma call_uid c T : (forall b, c <> SetUid b) -> t_uid (call c T) = t_uid T.
Proof. intros H. destruct c; try reflexivity. exfalso. eapply H. reflexivity. Qed.
Definition own (T : textile) : uids := fun uid => uid = t_uid T.
Lemma history_ok W fuel l : forall T c T' c', uid_first l -> @cache_ok (own T) c -> (c = [] \/ forall b, ~ In (Configure (SetUid b)) l) ->
  history W fuel (T, c) l = Some (T', c') -> @cache_ok (own T') c'.
Proof.
  induction l as [|e l IH]; intros T c T' c' Hf Hc Hd H; cbn [history] in H.
  - inversion H; subst. auto.
  - assert (uid_first l) as Hf'.
    { intros l1 b l2 text E Hin. apply (Hf (e :: l1) b l2 text); [rewrite E; reflexivity|right; auto]. }
    destruct e as [cl|text]; cbn [value_after fst snd] in H.
    + assert (@cache_ok (own (call cl T)) c) as Hc'.
      { destruct Hd as [-> | Hd]; [apply cache_ok_nil|]. apply (cache_ok_more (own T)); [|auto].
        unfold known, own. intros uid ->. symmetry. apply call_uid. intros b ->. apply (Hd b). left. auto. }
      eapply IH; [exact Hf'|exact Hc'| |exact H]. destruct Hd as [Hd | Hd]; [auto|right]. intros b Hb. apply (Hd b). right. auto.
    + destruct (parse W T fuel c text) as [html s| |] eqn:E; try discriminate.
      eapply IH; [exact Hf'|eapply parse_cache; eauto; reflexivity| |exact H]. right. intros b Hb.
      apply in_split in Hb as (l1 & l2 & ->). apply (Hf (Parse text :: l1) b l2 text); [reflexivity|left; auto].
Qed.
Theorem history_independent W fuel T l T' c' text : uid_first l -> history W fuel (T, []) l = Some (T', c') ->
  seen (parse W T' fuel c' text) = seen (parse W T' fuel [] text).
Proof.
  intros H1 H2. apply parse_same; [|apply cache_ok_nil]. eapply history_ok; eauto. apply cache_ok_nil.
Qed.

(** Without that restriction, those of every uid the value had. *)
Definition had (T : textile) (l : list event) : uids :=
  fun uid => uid = t_uid T \/ exists b, uid = uid_of b /\ In (Configure (SetUid b)) l.
Lemma history_had W fuel l : forall T c T' c' (K : uids), (forall uid, @known (had T l) uid -> @known K uid) ->
  @cache_ok K c -> history W fuel (T, c) l = Some (T', c') -> @cache_ok K c' /\ @known K (t_uid T').
Proof.
  induction l as [|e l IH]; intros T c T' c' K HK Hc H; cbn [history] in H.
  - inversion H; subst. split; [auto|]. apply HK. left. reflexivity.
  - destruct e as [cl|text]; cbn [value_after fst snd] in H.
    + eapply IH; [|exact Hc|exact H]. intros uid [-> | (b & -> & Hb)]; apply HK.
      * destruct cl as [| | | | | | | | | |base]; try (left; reflexivity). right. exists base. split; [reflexivity|left; reflexivity].
      * right. exists b. split; [reflexivity|right; auto].
    + destruct (parse W T fuel c text) as [html s| |] eqn:E; try discriminate.
      eapply IH; [|eapply parse_cache; [|exact Hc|exact E]|exact H].
      * intros uid [-> | (b & -> & Hb)]; apply HK; [left; reflexivity|right; exists b; split; [reflexivity|right; auto]].
      * apply HK. left. reflexivity.
Qed.
(** No parse in any history fails on the borrow. *)
Theorem history_no_borrow W fuel T l T' c' text : history W fuel (T, []) l = Some (T', c') ->
  parse W T' fuel c' text <> Panic BorrowError.
Proof.
  intros H. destruct (history_had W fuel l T [] T' c' (had T l) (fun _ x => x)) as [H1 H2]; [apply cache_ok_nil|exact H|].
  exact (parse_no_borrow W T' fuel c' text H2 H1).
Qed.
Theorem history_panics W fuel id l T c text p :
  uid_plain (uid_of id) = true -> (forall b, In (Configure (SetUid b)) l -> uid_plain (uid_of b) = true) ->
  history W fuel (default_textile id, []) l = Some (T, c) -> parse W T fuel c text = Panic p ->
  p = UnknownAlign \/ p = BadSlice \/ p = BadNumber \/ p = Overflow \/ (p = UnknownEntity /\ t_restricted T = true).
Proof.
  intros H1 H2 H3 H4.
  destruct (history_had W fuel l _ [] T c (had (default_textile id) l) (fun _ x => x)) as [H5 H6]; [apply cache_ok_nil|exact H3|].
  destruct (parse_sites W T fuel c text p H6 H5 H4) as [H|[H|[H|[H|[H|[(uid & Hk & Hp) _]]]]]]; auto 10.
  exfalso. destruct Hk as [-> | (b & -> & Hb)]; [|rewrite H2 in Hp by auto; discriminate].
  change (t_uid (default_textile id)) with (uid_of id) in Hp. congruence.
Qed.
