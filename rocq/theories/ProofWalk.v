(** Every logic closed under the operations of the parser holds of [parse_m]. *)
From Coq Require Import ZArith.
From Verif Require Import Str Unicode Regex RegexParse RegexSnips RegexTheory RegexGroups Lib ModelBase ModelHtml ModelUrl
  ModelAttrs ModelInline ModelParser SpecRegex ProofRegex ProofAttrs Logic.
#[local] Arguments u : simpl never.

Section Known.
Context {K : uids}.

(** ** Parts without state *)
Definition stateless {A} (T : textile) (m : M A) : Prop :=
  (exists a, forall s, m s = Ret a s) \/ (exists p, bad T p /\ forall s, m s = Panic p) \/ (forall s, m s = Diverge).

Lemma sl_ret {A} T (a : A) : stateless T (ret a).
Proof. left. exists a. reflexivity. Qed.
Lemma sl_panic {A} T p : bad T p -> stateless T (@panic A p).
Proof. intros H. right; left. exists p. auto. Qed.
Lemma sl_bind {A B} T (m : M A) (k : A -> M B) : stateless T m -> (forall a, (forall s, m s = Ret a s) -> stateless T (k a)) ->
  stateless T (bind m k).
Proof.
  intros [[a Ha]|[[p [Hp H]]|H]] Hk.
  - destruct (Hk a Ha) as [[b Hb]|[[p [Hp H]]|H]]; [left; exists b|right; left; exists p|right; right];
      try split; auto; intros s; unfold bind; rewrite Ha; auto.
  - right; left. exists p. split; auto. intros s. unfold bind. rewrite H. auto.
  - right; right. intros s. unfold bind. rewrite H. auto.
Qed.
Lemma sl_if {A} T (b : bool) (m m' : M A) : (b = true -> stateless T m) -> (b = false -> stateless T m') ->
  stateless T (if b then m else m').
Proof. destruct b; auto. Qed.
Lemma capx_ret r h n : hit_of r h -> always n r = true -> (n <> 0)%nat -> exists t, forall s, capx n h s = Ret t s.
Proof.
  intros Hh Ha Hn. destruct (hit_always r h n Hh Ha) as [t Ht]. exists t. intros s.
  unfold capx. destruct n; [congruence|]. rewrite Ht. reflexivity.
Qed.
Lemma sl_capx T r h n : hit_of r h -> always n r = true -> (n <> 0)%nat -> stateless T (capx n h).
Proof. intros. left. eapply capx_ret; eauto. Qed.
Lemma sl_mapM {A B} T (f : A -> M B) l : (forall a, In a l -> stateless T (f a)) -> stateless T (mapM f l).
Proof.
  induction l as [|x l IH]; intros H; cbn [mapM]; [apply sl_ret|].
  apply sl_bind; [apply H; left; auto|intros a _]. apply sl_bind; [apply IH; intros; apply H; right; auto|intros b _].
  apply sl_ret.
Qed.
Lemma sl_replace T r f text : (forall h, hit_of r h -> stateless T (f h)) -> stateless T (replace_allM r f text).
Proof.
  intros H. unfold replace_allM. apply sl_bind; [|intros; apply sl_ret].
  apply sl_mapM. intros [c|h] Hin; [apply sl_ret|]. apply H. eapply segs_hits; eauto.
Qed.
Lemma sl_split T r text : (forall t, exists ps, split_rx r t = Some ps) -> stateless T (splitM r text).
Proof. intros H. destruct (H text) as [ps Hps]. left. exists ps. intros s. unfold splitM. rewrite Hps. reflexivity. Qed.

(** Words of a pattern that is a finite choice, by inversion. *)
Lemma sl_valign T el t : stateless T (valign_style el t).
Proof.
  unfold valign_style. destruct (el_is_td_tr el); [|apply sl_ret].
  destruct (captures _ t) as [h|] eqn:E; [|apply sl_ret].
  apply captures_hit, hit_word in E.
  assert (h_text h = u "^" \/ h_text h = u "-" \/ h_text h = u "~") as H.
  { inversion E as [| |a0 b0 s1 s2 Ha Hb| | | | | | | | | |]; subst. inversion Ha; subst.
    inversion Hb as [|k x Hk| | | | | | | | | | |]; subst. cbn [app] in *.
    unfold in_cls in Hk. cbn [c_neg c_items existsb in_item] in Hk.
    rewrite xorb_false_l, orb_false_r, !orb_true_iff, !andb_true_iff, !N.leb_le in Hk.
    lits. destruct Hk as [Hk|[Hk|Hk]]; [right; left|left|right; right]; f_equal; lia. }
  destruct H as [ -> |[ -> | -> ]]; apply sl_ret.
Qed.
Lemma sl_halign T t : stateless T (halign_style t).
Proof.
  unfold halign_style. destruct (captures _ t) as [h|] eqn:E; [|apply sl_ret]. apply captures_hit in E.
  apply sl_bind; [eapply sl_capx; [exact E|reflexivity|discriminate]|intros v _].
  repeat (apply sl_if; intros; [apply sl_ret|]). apply sl_panic. unfold bad; auto.
Qed.
Lemma sl_ba T t el inc r : stateless T (block_attributes_parse t el inc r).
Proof.
  unfold block_attributes_parse. destruct (is_empty t); [apply sl_ret|].
  apply sl_bind; [apply sl_valign|intros va _].
  destruct (if r then ([], t) else _) as [style1 t1].
  destruct (match captures (rx_re ATTR_LANG_RE) t1 with Some h => _ | None => _ end) as [lang t2].
  destruct (match captures (rx_re ATTR_ACLASS_RE) t2 with Some h => _ | None => _ end) as [[ac bi] t3].
  destruct (match captures (rx_re ATTR_PADDING_LEFT_RE) t3 with Some h => _ | None => _ end) as [st2 t4].
  destruct (match captures (rx_re ATTR_PADDING_RIGHT_RE) t4 with Some h => _ | None => _ end) as [st3 t5].
  apply sl_bind; [apply sl_halign|intros ha _].
  destruct (if el_is_col el then _ else _) as [sp wi]. apply sl_ret.
Qed.

Lemma sl_unrestrict T url : stateless T (unrestrict_url T url).
Proof.
  unfold unrestrict_url. destruct (t_restricted T) eqn:E; [|apply sl_ret].
  unfold reverse_encode_html. apply sl_replace. intros h Hh. unfold reverse_entity.
  apply sl_bind; [eapply sl_capx; [exact Hh|reflexivity|discriminate]|intros v _].
  repeat (apply sl_if; intros; [apply sl_ret|]). apply sl_panic. unfold bad; auto 8.
Qed.

Lemma sl_of_opt {A} T p (o : option A) : bad T p -> stateless T (of_opt p o).
Proof. intros H. destruct o; [apply sl_ret|apply sl_panic; auto]. Qed.

Lemma sl_stop T l : forall t n, stateless T (stop_prefix l t n).
Proof.
  induction l as [|p l IH]; intros t n; cbn [stop_prefix]; [apply sl_ret|].
  apply sl_bind; [apply sl_of_opt; unfold bad; auto|intros x _]. apply sl_if; intros; [apply sl_ret|auto].
Qed.
Lemma sl_brs_loop T n : forall t lc br st out, stateless T (brs_loop n t lc br st out).
Proof.
  induction n as [|n IH]; intros; cbn [brs_loop]; [right; right; reflexivity|].
  apply sl_bind; [apply sl_of_opt; unfold bad; auto|intros x _].
  destruct (bfind_nl x); [|apply sl_ret].
  apply sl_bind; [apply sl_of_opt; unfold bad; auto|intros y _].
  apply sl_bind; [apply sl_of_opt; unfold bad; auto|intros z _].
  apply sl_bind; [apply sl_if; intros; [apply sl_ret|apply sl_stop]|intros b _]. apply IH.
Qed.
Lemma sl_insert_brs T t br : stateless T (insert_brs t br).
Proof.
  unfold insert_brs. apply sl_if; intros; [apply sl_ret|].
  apply sl_bind; [apply sl_brs_loop|intros [o n] _]. apply sl_if; intros; [apply sl_ret|].
  apply sl_bind; [apply sl_of_opt; unfold bad; auto|intros x _]. apply sl_ret.
Qed.

(** ** The URL trimming loop never misuses its counters *)
Definition counts_ok (k : counter) : Prop :=
  assocN 91 k <> None /\ assocN 40 k <> None /\ assocN 41 k <> None /\ exists n, assocN 93 k = Some (Some n).
Lemma cc_update_some c v k : assocN c k <> None -> exists k', cc_update c v k = Some k'.
Proof.
  induction k as [|[c' v'] k IH]; cbn; [congruence|]. destruct (c' =? c); [eauto|].
  intros H. destruct (IH H) as [k' ->]. cbn. eauto.
Qed.
Lemma cc_update_get c v k k' : cc_update c v k = Some k' -> forall x, assocN x k' = if x =? c then Some v else assocN x k.
Proof.
  revert k'; induction k as [|[c' v'] k IH]; intros k'; cbn; [discriminate|].
  destruct (N.eqb_spec c' c) as [->|Hc].
  - intros H; inversion H; subst. intros x. cbn. rewrite (N.eqb_sym c x). destruct (x =? c); auto.
  - destruct (cc_update c v k) as [k1|] eqn:E; [|discriminate]. cbn. intros H; inversion H; subst. intros x. cbn.
    destruct (N.eqb_spec c' x) as [->|]; [|apply IH; auto].
    apply N.eqb_neq in Hc. rewrite Hc. reflexivity.
Qed.
Lemma sl_cc_get T c k : assocN c k <> None -> stateless T (cc_get c k).
Proof. unfold cc_get. destruct (assocN c k); [intros; apply sl_ret|congruence]. Qed.
Lemma cc_get_val c k v s s' : cc_get c k s = Ret v s' -> assocN c k = Some v.
Proof. unfold cc_get. destruct (assocN c k); [intros H; inversion H; auto|discriminate]. Qed.
Lemma sl_cc_set T c v k : assocN c k <> None -> stateless T (cc_set c v k).
Proof. intros H. unfold cc_set. destruct (cc_update_some c v k H) as [k' ->]. apply sl_ret. Qed.
Lemma cc_set_val c v k k' s s' : cc_set c v k s = Ret k' s' -> forall x, assocN x k' = if x =? c then Some v else assocN x k.
Proof.
  unfold cc_set. destruct (cc_update c v k) as [k1|] eqn:E; [|discriminate].
  intros H; inversion H; subst. apply cc_update_get; auto.
Qed.
Lemma counts_set c v k k' : counts_ok k -> (forall x, assocN x k' = if x =? c then Some v else assocN x k) ->
  (c = 93 -> exists n, v = Some n) -> counts_ok k'.
Proof.
  intros (H1 & H2 & H3 & n & H4) H Hc. unfold counts_ok. rewrite !H.
  assert (D : forall x, assocN x k <> None -> (if x =? c then Some v else assocN x k) <> None)
    by (intros x Hx; destruct (x =? c); congruence).
  split; [|split; [|split]]; auto.
  destruct (N.eqb_spec 93 c) as [E|E]; [|eauto]. destruct (Hc (eq_sym E)) as [y ->]. eauto.
Qed.
Lemma sl_cc_dec T c k n : assocN c k = Some (Some n) -> stateless T (cc_dec c k).
Proof.
  intros H. unfold cc_dec, cc_get. rewrite H. apply sl_bind; [apply sl_ret|].
  intros a Ha. specialize (Ha (new_state [])). inversion Ha; subst. apply sl_cc_set. congruence.
Qed.
Lemma cc_dec_val c k n k' s s' : assocN c k = Some (Some n) -> cc_dec c k s = Ret k' s' ->
  forall x, assocN x k' = if x =? c then Some (Some (if 0 <? n then n - 1 else 0)) else assocN x k.
Proof. intros H. unfold cc_dec, cc_get. rewrite H. unfold bind. cbn. apply cc_set_val. Qed.

Definition st0 : pstate := new_state [].
Lemma sl_trim_url T n : forall url chars pop pre counts first, counts_ok counts ->
  stateless T (trim_url n url chars pop pre counts first).
Proof.
  induction n as [|n IH]; intros url chars pop pre counts first Hc; cbn [trim_url]; [right; right; reflexivity|].
  destruct chars as [|c rest]; [apply sl_ret|].
  apply sl_if; intros E1; [apply IH; auto|].
  apply sl_if; intros E2.
  { destruct (captures _ _) as [h|] eqn:E; [|apply sl_ret]. apply captures_hit in E.
    apply sl_bind; [eapply sl_capx; [exact E|reflexivity|discriminate]|intros v _].
    apply sl_bind; [eapply sl_capx; [exact E|reflexivity|discriminate]|intros w _]. apply IH; auto. }
  pose proof Hc as (H91 & H40 & H41 & n93 & H93).
  apply sl_if; intros E3.
  { apply sl_bind; [apply sl_cc_get; auto|intros o Ho].
    apply sl_bind; [destruct o; [apply sl_ret|apply sl_cc_set; auto]|intros k1 Hk1].
    assert (C1 : counts_ok k1).
    { destruct o; [specialize (Hk1 st0); inversion Hk1; subst; auto|].
      specialize (Hk1 st0). eapply counts_set; [exact Hc|eapply cc_set_val; exact Hk1|discriminate]. }
    pose proof C1 as (H91' & _ & _ & n1 & H93').
    apply sl_bind; [apply sl_cc_get; auto|intros a Ha].
    apply sl_bind; [apply sl_cc_get; congruence|intros b Hb].
    apply sl_if; intros E4; [apply sl_ret|].
    apply sl_bind; [eapply sl_cc_dec; exact H93'|intros k2 Hk2]. apply IH.
    eapply counts_set; [exact C1|eapply cc_dec_val; [exact H93'|exact (Hk2 st0)]|eauto]. }
  apply sl_if; intros E4; [|apply sl_ret].
  apply sl_bind; [apply sl_cc_get; auto|intros o Ho].
  apply sl_bind.
  { destruct o; [apply sl_ret|]. apply sl_bind; [apply sl_cc_set; auto|intros k Hk]. apply sl_cc_set.
    specialize (Hk st0). rewrite (cc_set_val _ _ _ _ _ _ Hk). cbn. auto. }
  intros k1 Hk1.
  assert (C1 : counts_ok k1 /\ exists m, assocN 41 k1 = Some (Some m)).
  { destruct o as [m|].
    - specialize (Hk1 st0). inversion Hk1; subst. split; auto. exists m. specialize (Ho st0). apply cc_get_val in Ho. auto.
    - specialize (Hk1 st0). unfold bind in Hk1. destruct (cc_set 40 _ _ st0) as [k sx| |] eqn:Ek; try discriminate.
      split.
      + eapply counts_set; [eapply counts_set; [exact Hc|eapply cc_set_val; exact Ek|discriminate]|eapply cc_set_val; exact Hk1|discriminate].
      + rewrite (cc_set_val _ _ _ _ _ _ Hk1). cbn. eauto. }
  destruct C1 as [C1 [m41 Hm]]. pose proof C1 as (_ & H40' & H41' & _).
  apply sl_bind; [apply sl_cc_get; auto|intros a Ha].
  apply sl_bind; [apply sl_cc_get; auto|intros b Hb].
  apply sl_if; intros E5; [apply sl_ret|].
  apply sl_bind; [eapply sl_cc_dec; exact Hm|intros k2 Hk2]. apply IH.
  eapply counts_set; [exact C1|eapply cc_dec_val; [exact Hm|exact (Hk2 st0)]|discriminate].
Qed.
Lemma sl_counts T n : stateless T (cc_set 93 (Some n) (cc_new [91; 93; 40; 41])) /\
  forall k, (forall s, cc_set 93 (Some n) (cc_new [91; 93; 40; 41]) s = Ret k s) -> counts_ok k.
Proof.
  split; [apply sl_cc_set; discriminate|]. intros k Hk. specialize (Hk st0).
  unfold counts_ok. rewrite !(cc_set_val _ _ _ _ _ _ Hk). cbn. repeat split; try discriminate. eauto.
Qed.

(** ** Finite languages *)
Definition item_words (i : citem) : option (list str) :=
  match i with
  | CRange lo hi => if hi - lo <? 64 then Some (map (fun k => [lo + N.of_nat k]) (seq 0 (S (N.to_nat (hi - lo))))) else None
  | CProp _ _ => None
  end.
Definition both {A} (f : A -> A -> A) (a b : option A) : option A :=
  match a, b with Some x, Some y => Some (f x y) | _, _ => None end.
Fixpoint fin (r : re) : option (list str) :=
  match r with
  | REps | RLook _ | RNLook _ | RBack _ | RAssert _ => Some [[]]
  | RCls k => if c_neg k then None else fold_right (fun i o => both (@app str) (item_words i) o) (Some []) (c_items k)
  | RSeq a b => both (fun x y => flat_map (fun v => map (fun w => v ++ w) y) x) (fin a) (fin b)
  | RAlt a b => both (@app str) (fin a) (fin b)
  | RGroup _ a => fin a
  | RStar _ _ | RBackref _ => None
  end.
Lemma item_words_ok i c l : in_item i c = true -> item_words i = Some l -> In [c] l.
Proof.
  destruct i as [lo hi|]; cbn [item_words in_item]; [|discriminate]. intros H.
  apply andb_true_iff in H as [H1 H2]. apply N.leb_le in H1, H2.
  destruct (hi - lo <? 64); [|discriminate]. intros E. apply (f_equal (fun o => match o with Some x => x | None => [] end)) in E. rewrite <- E. apply in_map_iff.
  exists (N.to_nat (c - lo)). split; [f_equal; lia|]. apply in_seq. lia.
Qed.
Lemma fin_ok r w : word r w -> forall l, fin r = Some l -> In w l.
Proof.
  induction 1 as [|k x Hk|a b v w H1 IH1 H2 IH2|a b w H1 IH1|a b w H1 IH1|g a|g a v w H1 IH1 H2 IH2|n a w H1 IH1|n w|a|a|k|a];
    cbn [fin]; intros l E; try discriminate; try (inversion E; subst; left; reflexivity); auto.
  - destruct k as [ng items]. cbn [c_neg c_items] in *. destruct ng; [discriminate|].
    unfold in_cls in Hk. cbn [c_neg c_items] in Hk. rewrite xorb_false_l in Hk.
    revert l E. induction items as [|i items IH]; [discriminate|]. cbn [fold_right existsb] in *.
    intros l E. destruct (item_words i) as [l1|] eqn:E1; [|discriminate].
    destruct (fold_right _ _ items) as [l2|] eqn:E2; [|discriminate]. inversion E; subst.
    apply in_app_iff. apply orb_true_iff in Hk as [Hk|Hk]; [left; eapply item_words_ok; eauto|right; eauto].
  - destruct (fin a) as [x|]; [|discriminate]. destruct (fin b) as [y|]; [|discriminate]. inversion E; subst.
    apply in_flat_map. exists v. split; [auto|]. apply in_map. auto.
  - destruct (fin a) as [x|]; [|discriminate]. destruct (fin b) as [y|]; [|discriminate]. inversion E; subst.
    apply in_app_iff. auto.
  - destruct (fin a) as [x|]; [|discriminate]. destruct (fin b) as [y|]; [|discriminate]. inversion E; subst.
    apply in_app_iff. auto.
Qed.
(** The group [n] of [r] has only the texts [ws]. *)
Definition group_fin (n : nat) (r : re) (ws : list str) : bool :=
  forallb (fun a => match fin a with Some l => forallb (fun w => existsb (seqb w) ws) l | None => false end) (groups_of n r).
Lemma group_fin_ok r h n t ws : hit_of r h -> cap_text n (h_caps h) = Some t -> group_fin n r ws = true -> In t ws.
Proof.
  intros Hh Ht Hg. destruct (hit_group r h n t Hh Ht) as (a & Hin & Hw).
  unfold group_fin in Hg. rewrite forallb_forall in Hg. specialize (Hg a Hin).
  destruct (fin a) as [l|] eqn:E; [|discriminate]. rewrite forallb_forall in Hg. specialize (Hg t (fin_ok a t Hw l E)).
  apply existsb_exists in Hg as (x & Hx & He). apply seqb_eq in He. subst. auto.
Qed.
Lemma word_nullable r w : word r w -> w = [] -> nullable r = true.
Proof.
  induction 1; intros E; cbn [nullable]; auto; try discriminate.
  - apply app_eq_nil in E as [-> ->]. rewrite IHword1, IHword2; auto.
  - rewrite IHword; auto.
  - rewrite IHword; auto. apply orb_true_r.
Qed.
Lemma group_nonempty r h n t : hit_of r h -> cap_text n (h_caps h) = Some t ->
  forallb (fun b => negb (nullable b)) (groups_of n r) = true -> t <> [].
Proof.
  intros Hh Ht Hg E. destruct (hit_group r h n t Hh Ht) as (b & Hin & Hw). rewrite forallb_forall in Hg.
  apply Hg in Hin. rewrite (word_nullable b t Hw E) in Hin. discriminate.
Qed.

Lemma sl_charref T h : hit_of (rx_re CHARREF) h -> stateless T (replace_charref h).
Proof.
  intros Hh. unfold replace_charref. apply sl_bind; [eapply sl_capx; [exact Hh|reflexivity|discriminate]|intros t _].
  assert (P : forall x v, stateless T (named_prefix x v)).
  { induction x as [|x IH]; intros v; cbn [named_prefix]; [apply sl_ret|]. destruct x; [apply sl_ret|].
    apply sl_bind; [apply sl_of_opt; unfold bad; auto|intros p _]. destruct (html5_get p); [|apply IH].
    apply sl_bind; [apply sl_of_opt; unfold bad; auto|intros q _]. apply sl_ret. }
  assert (Q : forall v, stateless T (o <- named_prefix (blen v - 1) v ;; match o with Some x => ret x | None => ret (u "&" ++ v) end)).
  { intros v. apply sl_bind; [apply P|intros [o|] _; apply sl_ret]. }
  assert (R : forall v, stateless T (match html5_get v with Some x => ret x | None =>
    o <- named_prefix (blen v - 1) v ;; match o with Some x => ret x | None => ret (u "&" ++ v) end end)).
  { intros v. destruct (html5_get v); [apply sl_ret|apply Q]. }
  destruct t as [|c t]; [apply R|].
  destruct (N.eqb_spec c 35) as [->|Hc].
  - apply sl_bind; [apply sl_of_opt; unfold bad; auto 6|intros n _; apply sl_ret].
  - destruct c as [|p]; [apply R|]. do 6 (destruct p as [p|p|]; try apply R). congruence.
Qed.
Lemma sl_entity T c : stateless T (char_code_to_entity c).
Proof.
  unfold char_code_to_entity, unescape. destruct (contains_char 38 _); [|apply sl_ret].
  apply sl_replace. apply sl_charref.
Qed.
Lemma sl_backref T info g i : stateless T (make_back_ref_link info g i).
Proof.
  unfold make_back_ref_link. apply sl_if; intros; [apply sl_ret|]. apply sl_if; intros.
  - destruct (n_refids info); [apply sl_ret|]. apply sl_bind; [apply sl_entity|intros; apply sl_ret].
  - apply sl_bind; [|intros; apply sl_ret]. generalize (n_refids info) (negb (contains_char i SYMS_RE_S)). intros l b. revert i.
    induction l as [|r l IH]; intros i; cbn [back_refs]; [apply sl_ret|].
    apply sl_bind; [apply sl_entity|intros]. apply sl_bind; [apply IH|intros; apply sl_ret].
Qed.
Lemma sl_align T h a : hit_of (rx_re IMAGE_RE) h -> cap_opt 1 h = Some a -> stateless T (align_name a).
Proof.
  intros Hh Ha. cbn [cap_opt] in Ha.
  assert (In a [u "<"; u "&lt;"; u "="; u ">"; u "&gt;"]) as H by (eapply group_fin_ok; eauto; vm_compute; reflexivity).
  cbn [In] in H. destruct H as [<-|[<-|[<-|[<-|[<-|[]]]]]]; apply sl_ret.
Qed.
Lemma sl_span_tag T r h m : In r TAG_PATTERNS -> hit_of (rx_re r) h -> (forall s, capx 2 h s = Ret m s) -> stateless T (span_tag m).
Proof.
  intros Hr Hh Hm. specialize (Hm st0). unfold capx in Hm. destruct (cap_text 2 (h_caps h)) as [t|] eqn:E; [|discriminate].
  inversion Hm; subst t.
  assert (forallb (fun r => group_fin 2 (rx_re r) [u "*"; u "**"; u "??"; u "_"; u "__"; u "-"; u "%"; u "+"; u "~"; u "^"]) TAG_PATTERNS = true) as G
    by (vm_compute; reflexivity).
  rewrite forallb_forall in G. apply G in Hr.
  pose proof (group_fin_ok _ _ _ _ _ Hh E Hr) as H. cbn [In] in H.
  repeat destruct H as [<-|H]; try apply sl_ret. destruct H.
Qed.
Lemma sl_section_tag T h a : hit_of (rx_re GRPMATCH_RE) h -> cap_opt 2 h = Some a -> stateless T (section_tag a).
Proof.
  intros Hh Ha. cbn [cap_opt] in Ha.
  assert (In a [u "^"; u "~"; u "-"]) as H by (eapply group_fin_ok; eauto; vm_compute; reflexivity).
  cbn [In] in H. destruct H as [<-|[<-|[<-|[]]]]; apply sl_ret.
Qed.

(** ** Rules derived from the operations *)
Section Rules.
Variables (W : world) (T : textile) (fuel : nat) (L : forall A, M A -> Prop).
Hypothesis HL : ops W T L.

Lemma w_sl {A} (m : M A) : stateless T m -> L A m.
Proof.
  intros [[a H]|[[p [Hp H]]|H]].
  - eapply (o_ext _ _ _ HL); [|apply (o_ret _ _ _ HL)]. exact H.
  - eapply (o_ext _ _ _ HL); [|apply (o_panic _ _ _ HL); exact Hp]. exact H.
  - eapply (o_ext _ _ _ HL); [|apply (o_diverge _ _ _ HL)]. exact H.
Qed.
Lemma w_bind_sl {A B} (m : M A) (k : A -> M B) : stateless T m -> (forall a, (forall s, m s = Ret a s) -> L B (k a)) -> L B (bind m k).
Proof.
  intros [[a H]|[[p [Hp H]]|H]] Hk.
  - eapply (o_ext _ _ _ HL); [|apply (Hk a H)]. intros s. unfold bind. rewrite H. reflexivity.
  - eapply (o_ext _ _ _ HL); [|apply (o_panic _ _ _ HL); exact Hp]. intros s. unfold bind. rewrite H. reflexivity.
  - eapply (o_ext _ _ _ HL); [|apply (o_diverge _ _ _ HL)]. intros s. unfold bind. rewrite H. reflexivity.
Qed.
Lemma w_capx {B} r h n (k : str -> M B) : hit_of r h -> always n r = true -> (n <> 0)%nat -> (forall t, L B (k t)) -> L B (bind (capx n h) k).
Proof. intros H1 H2 H3 H4. apply w_bind_sl; [eapply sl_capx; eauto|auto]. Qed.
Lemma w_mapM {A B} (f : A -> M B) l : (forall a, In a l -> L B (f a)) -> L _ (mapM f l).
Proof.
  induction l as [|x l IH]; intros H; cbn [mapM]; [apply (o_ret _ _ _ HL)|].
  apply (o_bind _ _ _ HL); [apply H; left; auto|intros a]. apply (o_bind _ _ _ HL); [apply IH; intros; apply H; right; auto|].
  intros. apply (o_ret _ _ _ HL).
Qed.
Lemma w_foldM {A B} (f : B -> A -> M B) l : forall b, (forall b a, In a l -> L B (f b a)) -> L _ (foldM f b l).
Proof.
  induction l as [|x l IH]; intros b H; cbn [foldM]; [apply (o_ret _ _ _ HL)|].
  apply (o_bind _ _ _ HL); [apply H; left; auto|intros]. apply IH. intros; apply H; right; auto.
Qed.
Lemma w_replace r f text : (forall h, hit_of r h -> L str (f h)) -> L str (replace_allM r f text).
Proof.
  intros H. unfold replace_allM. apply (o_bind _ _ _ HL); [|intros; apply (o_ret _ _ _ HL)].
  apply w_mapM. intros [c|h] Hin; [apply (o_ret _ _ _ HL)|]. apply H. eapply segs_hits; eauto.
Qed.
Lemma w_split r text : In r [GLYPH_SPLITTER_RE; SLICE_RE; LIST_SPLITTER; RC_SPLITTER; COMPONENTS_RE; MULTI_ENDLINE_RE] ->
  stateless T (splitM r text).
Proof. intros H. apply sl_split. intros t. apply program_splits. exact H. Qed.
Lemma w_if {A} (b : bool) (m m' : M A) : (b = true -> L A m) -> (b = false -> L A m') -> L A (if b then m else m').
Proof. destruct b; auto. Qed.
Lemma w_get {A} (k : pstate -> M A) : (forall s c, k (set_cache c s) = k s) -> (forall s, L A (k s)) -> L A (bind get k).
Proof. apply (o_get _ _ _ HL). Qed.

Ltac cap H := eapply w_capx; [exact H|reflexivity|discriminate|intros].
Ltac rt := apply (o_ret _ _ _ HL).
Ltac bnd := apply (o_bind _ _ _ HL); [|intros].
Ltac sl tac := apply w_bind_sl; [tac|intros].

Lemma w_f_textile r h : In r [SPECIAL_NOTEXTILE; SPECIAL_EQ] -> hit_of (rx_re r) h -> L str (f_textile T h).
Proof.
  intros Hr Hh. unfold f_textile.
  assert (always 1 (rx_re r) = true /\ always 2 (rx_re r) = true) as [H1 H2]
    by (cbn [In] in Hr; destruct Hr as [<-|[<-|[]]]; split; reflexivity).
  eapply w_capx; [exact Hh|exact H1|discriminate|intros]. eapply w_capx; [exact Hh|exact H2|discriminate|intros].
  destruct (get_special_options _ _). bnd; [apply (o_shelve _ _ _ HL)|rt].
Qed.
Lemma w_no_textile text : L str (no_textile T text).
Proof.
  unfold no_textile. bnd; apply w_replace; intros h Hh; eapply w_f_textile; eauto; cbn [In]; auto.
Qed.
Lemma w_f_code r h : In r [SPECIAL_CODE; SPECIAL_AT] -> hit_of (rx_re r) h -> L str (f_code T h).
Proof.
  intros Hr Hh. unfold f_code.
  assert (always 1 (rx_re r) = true /\ always 2 (rx_re r) = true) as [H1 H2]
    by (cbn [In] in Hr; destruct Hr as [<-|[<-|[]]]; split; reflexivity).
  eapply w_capx; [exact Hh|exact H1|discriminate|intros]. eapply w_capx; [exact Hh|exact H2|discriminate|intros].
  destruct (get_special_options _ _). bnd; [apply (o_shelve _ _ _ HL)|rt].
Qed.
Lemma w_code text : L str (code T text).
Proof.
  unfold code. bnd; [apply w_replace; intros h Hh; eapply w_f_code; eauto; cbn [In]; auto|].
  bnd; [apply w_replace; intros h Hh; eapply w_f_code; eauto; cbn [In]; auto|].
  apply w_replace. intros h Hh. unfold f_pre. cap Hh. cap Hh. destruct (get_special_options _ _).
  bnd; [apply (o_shelve _ _ _ HL)|rt].
Qed.
Lemma w_comments text : L str (get_html_comments T text).
Proof.
  apply w_replace. intros h Hh. unfold f_comment. cap Hh. cap Hh. bnd; [apply (o_shelve _ _ _ HL)|rt].
Qed.
Lemma w_refs text : L str (get_refs T text).
Proof.
  unfold get_refs. apply w_replace. intros h Hh. unfold f_ref.
  assert (hit_of (rx_re RESTRICTED_URLREF_RE) h \/ hit_of (rx_re UNRESTRICTED_URLREF_RE) h) as [H|H]
    by (destruct (t_restricted T); auto); cap H; cap H; sl ltac:(apply sl_unrestrict);
    (bnd; [apply (o_urlref _ _ _ HL)|rt]).
Qed.
Lemma w_read_loop n : forall i url data, L _ (read_loop W n i url data).
Proof.
  induction n as [|n IH]; intros; cbn [read_loop]; [apply (o_diverge _ _ _ HL)|].
  destruct (w_read W url i _) as [bytes|]; [|rt]. destruct (firstn _ bytes); [rt|].
  destruct (w_info W _); [rt|apply IH].
Qed.
Lemma w_image text : L str (image W T text).
Proof.
  apply w_replace. intros h Hh. unfold f_image. cap Hh. apply w_if; intros Hv; [rt|]. apply negb_false_iff in Hv.
  bnd; [destruct (cap_opt 2 h); [sl ltac:(apply sl_ba)|]; rt|].
  bnd; [destruct (cap_opt 1 h) eqn:E; [sl ltac:(eapply sl_align; eauto)|]; rt|].
  bnd.
  { apply w_if; intros Hs; [|rt]. apply andb_true_iff in Hs as [Hs1 Hs2]. apply negb_true_iff in Hs1.
    bnd; [|destruct a1 as [[? ?]|]; rt]. unfold get_image_size.
    bnd; [apply (o_http _ _ _ HL); auto|]. apply w_if; intros; [apply w_read_loop|rt]. }
  sl ltac:(apply sl_unrestrict). bnd; [apply (o_shelve_url _ _ _ HL)|].
  bnd; [|apply (o_shelve _ _ _ HL)].
  destruct (cap_opt 5 h); [|rt]. sl ltac:(apply sl_unrestrict). bnd; [apply (o_shelve_url _ _ _ HL)|rt].
Qed.
Lemma sl_glyphs text : stateless T (glyphs T text).
Proof. unfold glyphs. apply sl_bind; [apply w_split; cbn [In]; auto|intros; apply sl_ret]. Qed.
Lemma w_quoted text : L str (glyph_quoted_quote T text).
Proof.
  apply w_replace. intros h Hh. unfold f_glyph_quoted_quote.
  apply w_bind_sl; [eapply sl_capx; [exact Hh|reflexivity|discriminate]|intros pre Hpre].
  apply w_bind_sl; [eapply sl_capx; [exact Hh|reflexivity|discriminate]|intros post Hpost].
  specialize (Hpre st0). specialize (Hpost st0). unfold capx, of_opt in Hpre, Hpost.
  destruct (cap_text 1 (h_caps h)) as [t1|] eqn:E1; [|discriminate].
  destruct (cap_text 3 (h_caps h)) as [t3|] eqn:E3; [|discriminate]. inversion Hpre; inversion Hpost; subst.
  destruct pre as [|c1 pre]; [exfalso; eapply (group_nonempty _ _ _ _ Hh E1); reflexivity|].
  destruct post as [|c3 post]; [exfalso; eapply (group_nonempty _ _ _ _ Hh E3); reflexivity|].
  apply w_if; intros; [rt|]. cap Hh. bnd; [|apply (o_shelve _ _ _ HL)].
  apply w_if; intros; [sl ltac:(apply sl_glyphs); rt|]. apply w_if; intros; rt.
Qed.
Lemma w_span_n n : forall text, L str (span_n T n text).
Proof.
  induction n as [|n IH]; intros text; cbn [span_n]; [apply (o_diverge _ _ _ HL)|].
  apply (o_span _ _ _ HL). unfold multi_replace_with_one. apply w_foldM. intros t r Hr. apply w_replace. intros h Hh.
  unfold f_span.
  assert (forallb (fun n => always n (rx_re r)) [2; 3; 5; 6]%nat = true) as HA.
  { assert (forallb (fun r => forallb (fun n => always n (rx_re r)) [2; 3; 5; 6]%nat) TAG_PATTERNS = true) as G by (vm_compute; reflexivity).
    rewrite forallb_forall in G. apply G; auto. }
  cbn [forallb] in HA. rewrite !andb_true_iff in HA. destruct HA as (H2 & H3 & H5 & H6 & _).
  apply w_bind_sl; [eapply sl_capx; [exact Hh|exact H2|discriminate]|intros m Hm].
  sl ltac:(eapply sl_span_tag; eauto).
  eapply w_capx; [exact Hh|exact H3|discriminate|intros]. sl ltac:(apply sl_ba).
  eapply w_capx; [exact Hh|exact H5|discriminate|intros]. bnd; [apply IH|].
  eapply w_capx; [exact Hh|exact H6|discriminate|intros]. destruct (get_special_options _ _).
  bnd; [apply (o_store_tags _ _ _ HL)|rt].
Qed.
Lemma w_span text : L str (span T text).
Proof. apply w_span_n. Qed.

(** Patterns with the uid. *)
Lemma w_capx_u {B} uid r h n (k : str -> M B) : known uid -> hit_of r h -> (uid_plain uid = true -> always n r = true) -> (n <> 0)%nat ->
  (forall t, L B (k t)) -> L B (bind (capx n h) k).
Proof.
  intros H0 H1 H2 H3 H4. destruct (uid_plain uid) eqn:E; [eapply w_capx; eauto|].
  apply w_bind_sl; [|auto]. destruct n; [congruence|]. unfold capx. apply sl_of_opt. unfold bad. do 5 right. split; [eauto|discriminate].
Qed.
Lemma always_lit n s r : always n r = true -> always n (lit_then s r) = true.
Proof. intros H. induction s as [|c s IH]; cbn [lit_then always]; [auto|]. rewrite IH. apply orb_true_r. Qed.

Lemma w_f_link uid r h : known uid -> link_re uid = Some r -> hit_of (rx_re r) h -> L str (f_link W T h).
Proof.
  intros Hk Hr Hh.
  assert (uid_plain uid = true -> always 2 (rx_re r) = true /\ always 3 (rx_re r) = true) as H23.
  { intros Hu. unfold link_re in Hr. rewrite Hu in Hr. unfold LINK_PRE_AND_REST in Hr. cbn [rx_re] in Hr. inversion Hr; subst.
    cbn [rx_re always]. split; rewrite always_lit; auto using orb_true_r. }
  unfold f_link. eapply w_capx_u; [exact Hk|exact Hh|apply H23|discriminate|intros]. eapply w_capx_u; [exact Hk|exact Hh|apply H23|discriminate|intros].
  apply w_if; intros; [rt|].
  destruct (match captures (rx_re LINK_BLOCK_RE) _ with Some m => _ | None => _ end) as [[atts text] title].
  destruct (cut_brackets _) as [url1 tight].
  apply w_bind_sl; [apply sl_counts|intros counts Hc]. apply (sl_counts T) in Hc.
  sl ltac:(apply sl_trim_url; auto). destruct a as [[chars pop] pre].
  sl ltac:(apply sl_unrestrict). apply w_if; intros; [rt|].
  bnd; [apply w_if; intros; [|rt]; apply w_if; intros; [rt|]; apply w_get; [reflexivity|intros s; destruct (assoc _ _); rt]|].
  bnd; [apply w_if; intros; [rt|apply w_image]|].
  bnd; [apply w_span|]. sl ltac:(apply sl_glyphs). bnd; [apply (o_shelve_url _ _ _ HL)|].
  sl ltac:(apply sl_ba). bnd; [apply w_if; intros; [rt|bnd; [apply (o_shelve _ _ _ HL)|rt]]|].
  bnd; [apply (o_shelve _ _ _ HL)|rt].
Qed.
Lemma w_link_loop uid r n : known uid -> link_re uid = Some r -> forall text, L str (link_loop W T n r text).
Proof.
  intros Hk Hr. induction n as [|n IH]; intros text; cbn [link_loop]; [apply (o_diverge _ _ _ HL)|].
  apply w_if; intros; [|rt]. bnd; [apply w_replace; intros h Hh; eapply w_f_link; eauto|]. apply w_if; intros; [rt|apply IH].
Qed.
Lemma w_mark_loop n : forall q p parts b f, L _ (mark_loop n q p parts b f).
Proof.
  induction n as [|n IH]; intros; cbn [mark_loop]; [apply (o_diverge _ _ _ HL)|].
  apply w_if; intros; [destruct q; apply w_if; intros; try rt; apply IH|].
  destruct q; [rt|]. apply w_if; intros; [rt|apply IH].
Qed.
Lemma split_char_nonempty c s : split_char c s <> [].
Proof. induction s as [|x s IH]; cbn; [discriminate|]. destruct (x =? c); [discriminate|]. destruct (split_char c s); discriminate. Qed.
Lemma w_mark text : L str (mark_start_of_links T fuel text).
Proof.
  unfold mark_start_of_links. sl ltac:(apply w_split; cbn [In]; auto).
  destruct a as [|x [|y a]]; [rt|rt|]. bnd; [|rt]. apply w_mapM. intros s _. unfold mark_slice.
  apply w_if; intros; [rt|]. destruct (rev (split_char 34 s)) as [|p q] eqn:E.
  - exfalso. apply (f_equal (@rev str)) in E. rewrite rev_involutive in E. cbn in E.
    apply (split_char_nonempty 34 s E).
  - bnd; [apply w_mark_loop|rt].
Qed.
Lemma w_token_hit uid r h (k : bool) : known uid -> (uid_plain uid = true -> always 1 r = true) -> hit_of r h ->
  L str (if k then retrieve_tag_hit h else retrieve_url_hit W h).
Proof.
  intros Hk Ha Hh. destruct k.
  - unfold retrieve_tag_hit. eapply w_capx_u; [exact Hk|exact Hh|exact Ha|discriminate|intros].
    sl ltac:(apply sl_of_opt; unfold bad; auto 6). apply w_get; [reflexivity|intros; rt].
  - unfold retrieve_url_hit. eapply w_capx_u; [exact Hk|exact Hh|exact Ha|discriminate|intros].
    apply w_get; [reflexivity|intros s]. destruct (parse_uint _ _); [|rt]. apply w_if; intros; [rt|].
    destruct (assoc _ _); rt.
Qed.
Lemma w_tag_br r tag h : always 1 r = true -> always 2 r = true -> hit_of r h -> L str (f_tag_br T tag h).
Proof.
  intros H1 H2 Hh. unfold f_tag_br. eapply w_capx; [exact Hh|exact H2|discriminate|intros].
  sl ltac:(apply sl_insert_brs). eapply w_capx; [exact Hh|exact H1|discriminate|intros]. rt.
Qed.
Lemma w_p_br text : L str (do_p_br T text).
Proof.
  apply w_replace. intros h Hh. unfold f_p_br. cap Hh. cap Hh. cap Hh. cap Hh. rt.
Qed.
Lemma w_footnotes text : L str (footnote_ref T text).
Proof.
  apply w_replace. intros h Hh. unfold f_footnote_id. cap Hh.
  eapply (o_ext _ _ _ HL _ (r <- footnote_op T t ;;
     space <- capx 3 h ;;
     ret ((if seqb (cap_or 2 h) (u "!") then generate_tag (u "sup") (Some t) (fst r)
           else generate_tag (u "sup") (Some (generate_tag (u "a") (Some t) [(u "href", u "#fn" ++ snd r)])) (fst r)) ++ space))).
  - intros s. unfold footnote_op, bind, get.
    match goal with |- match ?x with _ => _ end = _ => destruct x as [at1 s1| |]; auto end.
    destruct (assoc t (ps_footnotes s1)); reflexivity.
  - bnd; [apply (o_footnote _ _ _ HL)|]. cap Hh. rt.
Qed.
Lemma w_noterefs text : L str (note_ref T text).
Proof.
  apply w_replace. intros h Hh. unfold f_parse_note_refs. cap Hh. cap Hh. cap Hh. sl ltac:(apply sl_ba).
  eapply (o_ext _ _ _ HL _ (r <- noteref_op T t0 ;;
     ret (generate_tag (u "sup") (Some
       (let result := u "<span id=""noteref" ++ snd (fst r) ++ u """>" ++ fst (fst r) ++ u "</span>" in
        if seqb t1 (u "!") then result
        else u "<a href=""#note" ++ snd r ++ u """>" ++ result ++ u "</a>")) (ba_html_attrs a)))).
  - intros s. unfold noteref_op, bind, get, modify, ret.
    destruct (match match assoc t0 (ps_notes s) with Some n => n_seq n | None => None end with Some num => _ | None => _ end) as [num s1| |]; auto.
    destruct (new_id T s1) as [refid s2| |]; auto.
    destruct (assoc t0 (ps_notes s2)) as [nt|]; auto. cbn [of_opt]. unfold ret.
    destruct (if is_empty (n_id nt) then _ else _) as [id s3| |]; auto.
  - bnd; [apply (o_noteref _ _ _ HL)|]. rt.
Qed.
Lemma w_note_lists text : L _ rekey_op -> L str (place_note_lists T text).
Proof.
  intros Hrk. unfold place_note_lists. bnd; [exact Hrk|]. apply w_replace. intros h Hh. unfold f_note_lists.
  cap Hh. cap Hh. cap Hh. bnd.
  { destruct (cap_opt 2 h) as [[|c x]|] eqn:E; [|rt|rt].
    exfalso. eapply (group_nonempty _ _ 2 _ Hh E); reflexivity. }
  apply w_get; [reflexivity|intros s].
  bnd; [|apply w_if; intros; [rt|sl ltac:(apply sl_ba); rt]].
  apply w_if; intros; [rt|]. bnd; [|bnd; [apply (o_nl _ _ _ HL)|rt]].
  apply w_mapM. intros kv _. unfold note_item. sl ltac:(apply sl_backref). rt.
Qed.
Lemma w_list_line prev next lists item : L _ (list_line T prev next lists item).
Proof.
  unfold list_line. sl ltac:(apply sl_ba). bnd.
  { apply w_if; intros; [|rt]. apply w_get; [reflexivity|intros s].
    apply w_bind_sl.
    { unfold ol_number. apply sl_if; intros; [|apply sl_ret]. apply sl_if; intros; [|apply sl_ret].
      apply sl_panic. unfold bad; auto 6. }
    intros r _. bnd; [apply (o_ol _ _ _ HL)|rt]. }
  destruct (if negb (has_key _ _) then _ else _). rt.
Qed.
Lemma w_list_lines items : forall prev lists, L _ (list_lines T prev lists items).
Proof.
  induction items as [|i items IH]; intros; cbn [list_lines]; [rt|].
  bnd; [apply w_list_line|]. bnd; [apply IH|rt].
Qed.
End Rules.

(** ** The whole program *)
Section Program.
Variables (W : world) (T : textile) (fuel : nat) (L G : forall A, M A -> Prop).
Hypothesis HL : ops W T L.
Hypothesis HG : ops W T G.
Hypothesis HD : defs T G.
Hypothesis HC : cache_rule T L G.
Hypothesis HK : known (t_uid T).

Ltac cap H := eapply w_capx; [exact HG|exact H|reflexivity|discriminate|intros].
Ltac rt := apply (o_ret _ _ _ HG).
Ltac bnd := apply (o_bind _ _ _ HG); [|intros].
Ltac sl tac := eapply w_bind_sl; [exact HG|tac|intros].
Ltac wif := apply w_if; intros.

Lemma bad_regex {A} (o : option A) : (uid_plain (t_uid T) = true -> o <> None) -> o = None -> bad T BadRegex.
Proof.
  intros H1 H2. destruct (uid_plain (t_uid T)) eqn:E; [exfalso; apply H1; auto|].
  unfold bad. do 5 right. split; [eauto|discriminate].
Qed.
Lemma w_retrieve_urls text : G str (retrieve_urls W T text).
Proof.
  change (G str (with_cache 413 [] (url_token_re (t_uid T)) (fun p => replace_allM (rx_re p) (retrieve_url_hit W) text) ret)).
  eapply HC; [left; reflexivity| | |intros; rt].
  - intros uid r Hk Hr. eapply w_replace; [exact HL|]. intros h Hh. apply (w_token_hit W T L HL uid) with (k := false) in Hh; auto.
    intros Hu. unfold url_token_re in Hr. rewrite Hu in Hr. inversion Hr; subst. cbn [rx_re]. apply always_lit. reflexivity.
  - apply bad_regex. intros Hu. unfold url_token_re. rewrite Hu. discriminate.
Qed.
Lemma w_retrieve_tags text : G str (retrieve_tags T text).
Proof.
  change (G str (with_cache 1608 [] (ospan_token_re (t_uid T)) (fun p => replace_allM (rx_re p) retrieve_tag_hit text)
    (fun result => with_cache 1619 [] (cspan_token_re (t_uid T)) (fun p => replace_allM (rx_re p) retrieve_tag_hit result) ret))).
  eapply HC; [right; left; reflexivity| | |].
  - intros uid r Hk Hr. eapply w_replace; [exact HL|]. intros h Hh. apply (w_token_hit W T L HL uid) with (k := true) in Hh; auto.
    intros Hu. unfold ospan_token_re in Hr. rewrite Hu in Hr. inversion Hr; subst. cbn [rx_re]. apply always_lit. reflexivity.
  - apply bad_regex. intros Hu. unfold ospan_token_re. rewrite Hu. discriminate.
  - intros x. eapply HC; [right; right; left; reflexivity| | |intros; rt].
    + intros uid r Hk Hr. eapply w_replace; [exact HL|]. intros h Hh. apply (w_token_hit W T L HL uid) with (k := true) in Hh; auto.
      intros Hu. unfold cspan_token_re in Hr. rewrite Hu in Hr. inversion Hr; subst. cbn [rx_re].
      apply (always_lit 1 ([32] ++ uid)). reflexivity.
    + apply bad_regex. intros Hu. unfold cspan_token_re. rewrite Hu. discriminate.
Qed.
Lemma w_replace_links text : G str (replace_links W T fuel text).
Proof.
  change (G str (with_cache 1266 [] (link_re (t_uid T)) (fun p => link_loop W T fuel p text) ret)).
  eapply HC; [right; right; right; left; reflexivity| | |intros; rt].
  - intros uid r Hk Hr. eapply w_link_loop; eauto.
  - apply bad_regex. intros Hu. unfold link_re. rewrite Hu. discriminate.
Qed.
Lemma w_links text : G str (links W T fuel text).
Proof. unfold links. bnd; [apply (w_mark W T fuel G HG)|apply w_replace_links]. Qed.

Definition br_tags : list str := [u "dt"; u "dd"; u "li"; u "th"; u "td"].
Lemma br_patterns : forallb (fun t => match tag_br_re t with Some r => always 1 (rx_re r) && always 2 (rx_re r) | None => false end) br_tags = true.
Proof. vm_compute. reflexivity. Qed.
Lemma w_do_tag_br tag text : In tag br_tags -> G str (do_tag_br T tag text).
Proof.
  intros Ht. change (G str (with_cache 1060 tag (tag_br_re tag) (fun p => replace_allM (rx_re p) (f_tag_br T tag) text) ret)).
  pose proof br_patterns as B. rewrite forallb_forall in B. specialize (B tag Ht).
  destruct (tag_br_re tag) as [r|] eqn:E; [|discriminate]. apply andb_true_iff in B as [B1 B2].
  rewrite <- E. apply (HC _ _ 1060 tag (fun _ => tag_br_re tag)); [do 4 right; reflexivity| |rewrite E; discriminate|intros; rt].
  intros uid r' _ Hr'. rewrite E in Hr'. inversion Hr'; subst.
  eapply w_replace; [exact HL|]. intros h Hh. eapply (w_tag_br W T L HL); eauto.
Qed.
Lemma item_tag_br tl : In (item_tag tl) br_tags.
Proof. unfold item_tag, br_tags. destruct (contains_char 59 tl); [|destruct (contains_char 58 tl)]; cbn [In]; auto. Qed.
Lemma w_lists text : G str (textile_lists T text).
Proof.
  unfold textile_lists. eapply w_replace; [exact HG|]. intros h Hh. unfold f_textile_list. sl ltac:(apply (w_split T); cbn [In]; auto).
  destruct (read_items a) as [|i items] eqn:E; [rt|]. wif; [rt|].
  bnd; [apply (w_list_lines W T G HG)|]. apply w_do_tag_br. unfold last_litem.
  destruct (rev (i :: items)) eqn:E2; [|apply item_tag_br].
  apply (f_equal (@rev list_item)) in E2. rewrite rev_involutive in E2. discriminate.
Qed.

Section WithGraf.
Variable graf : str -> M str.
Hypothesis Hgraf : forall t, G str (graf t).

Lemma w_rc_list text : G str (redcloth_list T graf text).
Proof.
  unfold redcloth_list. eapply w_replace; [exact HG|]. intros h Hh. unfold f_rc_list. sl ltac:(apply (w_split T); cbn [In]; auto 6).
  bnd; [|rt]. eapply w_foldM; [exact HG|]. intros out line _. unfold rc_line.
  destruct (captures (rx_re RC_ATTR_CONTENT_RE) line) as [mm|] eqn:E; [|rt]. apply captures_hit in E. cap E. cap E.
  sl ltac:(apply sl_ba). bnd.
  { destruct (captures (rx_re RC_XM_RE) _) as [xm|] eqn:E2; [|rt]. apply captures_hit in E2. cap E2. cap E2. rt. }
  destruct a1 as [term def]. wif; [rt|]. bnd; [apply Hgraf|]. bnd; [apply Hgraf|]. rt.
Qed.
Lemma w_table_cell cell : G str (table_cell T graf cell).
Proof.
  unfold table_cell. bnd.
  { destruct (captures (rx_re CMTCH_RE) cell) as [mm|] eqn:E; [|rt]. apply captures_hit in E. cap E. cap E.
    sl ltac:(apply sl_ba). rt. }
  destruct a as [c atts]. bnd; [|apply w_do_tag_br; destruct (is_match _ cell); unfold br_tags; cbn [In]; auto 6].
  wif; [rt|]. destruct (captures (rx_re CELL_A_PATTERN_RE) c) as [mm|] eqn:E; [|rt]. apply captures_hit in E. cap E. cap E.
  bnd; [apply w_rc_list|]. bnd; [apply w_lists|]. rt.
Qed.
Lemma w_col_tags cols : forall first, G str (col_tags T first cols).
Proof.
  induction cols as [|c cols IH]; intros first; cbn [col_tags]; [rt|].
  sl ltac:(apply sl_ba). bnd; [apply IH|rt].
Qed.
Lemma w_table_row first acc row : G _ (table_row T graf first acc row).
Proof.
  unfold table_row. bnd.
  { unfold row_caption. wif; [|rt]. destruct (captures (rx_re CAPTION_RE) _) as [mm|] eqn:E; [|rt]. apply captures_hit in E.
    cap E. cap E. bnd; [unfold process_caption; sl ltac:(apply sl_ba); rt|]. cap E. rt. }
  destruct a as [caption row1]. destruct row1 as [row1|]; [|rt]. bnd.
  { unfold row_colgroup. destruct (captures (rx_re COLGROUP_RE) _) as [mm|] eqn:E; [|rt]. apply captures_hit in E.
    cap E. bnd; [apply w_col_tags|rt]. }
  destruct a as [cg row2]. destruct row2 as [row2|]; [|rt]. bnd.
  { unfold row_group. destruct (captures (rx_re GRPMATCH_RE) _) as [mm|] eqn:E; [|rt]. apply captures_hit in E.
    bnd; [|cap E; rt]. destruct (cap_opt 2 mm) eqn:E2; [|rt]. destruct (cap_opt 3 mm); [|rt].
    sl ltac:(eapply sl_section_tag; eauto). sl ltac:(apply sl_ba). rt. }
  destruct a as [acc2 row3]. bnd.
  { destruct (captures (rx_re RMTCH_RE) _) as [mm|] eqn:E; [|rt]. apply captures_hit in E. cap E. cap E.
    sl ltac:(apply sl_ba). rt. }
  destruct a as [row4 atts]. bnd; [eapply w_mapM; [exact HG|intros; apply w_table_cell]|rt].
Qed.
Lemma w_table_rows rows : forall first acc, G _ (table_rows T graf first acc rows).
Proof.
  induction rows as [|r rows IH]; intros; cbn [table_rows]; [rt|]. bnd; [apply w_table_row|apply IH].
Qed.
Lemma w_table text : G str (table T graf text).
Proof.
  unfold table. destruct (captures (rx_re TABLE_RE) _) as [h|] eqn:E; [|rt]. apply captures_hit in E. cap E.
  unfold process_table. sl ltac:(apply sl_ba). sl ltac:(apply (w_split T); cbn [In]; auto 7).
  bnd; [apply w_table_rows|rt].
Qed.
Lemma w_note_def h : hit_of (rx_re NOTEDEF_RE) h -> G str (parse_note_defs T graf h).
Proof.
  intros Hh. unfold parse_note_defs. cap Hh. cap Hh. cap Hh. cap Hh.
  eapply (o_ext _ _ _ HG _ (declare_op T t ;;; (note_content <- graf t2 ;;
    (s <- get ;;
     match assoc t (ps_notes s) with
     | None => ret []
     | Some nt =>
      match n_link nt with
      | Some _ => ret []
      | None =>
          ba <- block_attributes_parse t1 ElNone true (t_restricted T) ;;
          modify (fun s => set_notes
            (bt_insert t (mk_note (n_id nt) (Some note_content)
                                      (if is_empty t0 then None else Some t0)
                                      (Some (ba_to_string ba)) (n_seq nt) (n_refids nt)) (ps_notes s)) s) ;;;
          ret []
      end
     end)))).
  { intros s. unfold declare_op. unfold bind at 1 2. unfold bind at 3 4. reflexivity. }
  bnd; [apply (o_declare _ _ HD)|]. bnd; [apply Hgraf|].
  destruct (sl_ba T t1 ElNone true (t_restricted T)) as [[ba H]|[[p [Hp H]]|H]].
  - eapply (o_ext _ _ _ HG _ (define_op t a0 t0 (ba_to_string ba) ;;; ret [])).
    + intros s. unfold define_op, bind, get. destruct (assoc t (ps_notes s)) as [nt|]; [|reflexivity].
      destruct (n_link nt); [reflexivity|]. rewrite H. reflexivity.
    + bnd; [apply (o_define _ _ HD)|rt].
  - eapply (o_ext _ _ _ HG _ (s <- get ;;
     match assoc t (ps_notes s) with
     | None => ret []
     | Some nt => match n_link nt with Some _ => ret [] | None => panic p end
     end)).
    + intros s. unfold bind, get. destruct (assoc t (ps_notes s)) as [nt|]; [|reflexivity].
      destruct (n_link nt); [reflexivity|]. rewrite H. reflexivity.
    + eapply w_get; [exact HG|reflexivity|]. intros s. destruct (assoc t (ps_notes s)) as [nt|]; [|rt].
      destruct (n_link nt); [rt|]. apply (o_panic _ _ _ HG). exact Hp.
  - eapply (o_ext _ _ _ HG _ (s <- get ;;
     match assoc t (ps_notes s) with
     | None => ret []
     | Some nt => match n_link nt with Some _ => ret [] | None => diverge end
     end)).
    + intros s. unfold bind, get. destruct (assoc t (ps_notes s)) as [nt|]; [|reflexivity].
      destruct (n_link nt); [reflexivity|]. rewrite H. reflexivity.
    + eapply w_get; [exact HG|reflexivity|]. intros s. destruct (assoc t (ps_notes s)) as [nt|]; [|rt].
      destruct (n_link nt); [rt|]. apply (o_diverge _ _ _ HG).
Qed.
Lemma w_block_new tag attrs cite content : G _ (block_new W T graf tag attrs cite content).
Proof.
  unfold block_new. sl ltac:(apply sl_ba). bnd.
  { wif; [|rt]. bnd; [eapply w_replace; [exact HG|apply w_note_def]|rt]. }
  wif; [rt|]. bnd.
  { unfold block_footnote. destruct (captures (rx_re FNID_RE) tag) as [mm|] eqn:E; [|rt]. apply captures_hit in E. cap E.
    eapply w_get; [exact HG|reflexivity|intros s]. bnd; [destruct (assoc _ _); [rt|apply (o_new_id _ _ _ HG)]|].
    destruct (ba_id _); rt. }
  destruct a1 as [[ntag ba] c2]. bnd.
  { unfold block_shape. wif.
    { bnd; [|rt]. destruct cite; [|rt]. sl ltac:(apply sl_unrestrict). bnd; [apply (o_shelve_url _ _ _ HG)|rt]. }
    wif. { bnd; [apply (o_shelve _ _ _ HG)|]. destruct (ba_lang ba); rt. }
    wif. { bnd; [apply (o_shelve _ _ _ HG)|rt]. }
    wif. { bnd; [apply (o_shelve _ _ _ HG)|rt]. }
    wif; rt. }
  wif; [rt|]. bnd; [apply Hgraf|rt].
Qed.
Lemma w_block_step a text : G _ (block_step W T graf a text).
Proof.
  unfold block_step. wif; [rt|]. destruct (if is_empty (bl_ext a) then _ else _) as [[[tag atts] cite] eat].
  bnd.
  { destruct (captures _ text) as [mm|] eqn:E.
    - bnd; [apply w_block_new|rt].
    - bnd; [|rt]. unfold anonymous_block. wif; [bnd; [apply w_block_new|rt]|].
      wif; [bnd; [apply (o_shelve _ _ _ HG)|rt]|]. wif; [bnd; [apply (o_shelve _ _ _ HG)|rt]|].
      bnd; [apply Hgraf|rt]. }
  destruct a0 as [[[[[[[[? ?] ?] ?] ?] ?] ?] ?] ?]. bnd; [apply (w_p_br W T G HG)|rt].
Qed.
Lemma w_block text : G str (block W T graf text).
Proof.
  unfold block. sl ltac:(apply (w_split T); cbn [In]; auto 8). bnd; [|rt].
  eapply w_foldM; [exact HG|]. intros. apply w_block_step.
Qed.
Lemma w_graf_body text : G str (graf_body W T fuel graf text).
Proof.
  unfold graf_body. bnd; [wif; [rt|apply (w_no_textile W T G HG)]|]. bnd; [wif; [rt|apply (w_code W T G HG)]|].
  bnd; [apply (w_comments W T G HG)|]. bnd; [apply (w_refs W T G HG)|]. bnd; [apply (w_quoted W T G HG)|].
  bnd; [apply w_links|]. bnd; [wif; [rt|apply (w_image W T G HG)]|]. bnd; [wif; [rt|apply w_table]|].
  bnd; [wif; [rt|apply w_rc_list]|]. bnd; [wif; [rt|apply w_lists]|]. bnd; [apply (w_span W T G HG)|].
  bnd; [apply (w_footnotes W T G HG)|]. bnd; [apply (w_noterefs W T G HG)|]. sl ltac:(apply sl_glyphs). rt.
Qed.
End WithGraf.

Lemma w_graf n : forall text, G str (graf_n W T fuel n text).
Proof. induction n as [|n IH]; intros; cbn [graf_n]; [apply (o_diverge _ _ _ HG)|]. apply w_graf_body. exact IH. Qed.
Theorem walk text : G _ rekey_op -> G str (parse_m W T fuel text).
Proof.
  intros Hrk. unfold parse_m. wif; [rt|]. bnd.
  { wif.
    - bnd; [apply w_block; intros; apply w_graf|apply (w_note_lists W T G HG); exact Hrk].
    - bnd; [apply (w_quoted W T G HG)|]. bnd; [apply (w_span W T G HG)|]. apply (w_sl W T G HG). apply sl_glyphs. }
  bnd.
  { unfold retrieve. eapply w_get; [exact HG|reflexivity|intros s]. generalize (ps_shelf s) as shelf.
    intros shelf. revert a. induction fuel as [|n IH]; intros t; cbn [retrieve_loop]; [apply (o_diverge _ _ _ HG)|].
    wif; [rt|apply IH]. }
  bnd; [apply w_retrieve_tags|]. bnd; [apply w_retrieve_urls|]. rt.
Qed.
End Program.
End Known.
