(** Deciding that a pattern cannot match in any text of a regular family.

    A family of texts is given by a nondeterministic automaton whose labels are
    character classes.  [post] over-approximates the automaton states in which
    a match can end; if it is empty from every state the pattern matches nowhere
    in any text of the family. *)
From Verif Require Import Str Unicode Regex RegexTheory.

(** ** Over-approximation of "the classes have a common character" *)
Definition prop_eqb (p q : uprop) : bool :=
  match p, q with
  | PSpace, PSpace | PNd, PNd | PN, PN | PL, PL | PM, PM | PPc, PPc
  | PLu, PLu | PLl, PLl | PSc, PSc | PWord, PWord => true
  | _, _ => false
  end.

Lemma prop_eqb_eq p q : prop_eqb p q = true -> p = q.
Proof. destruct p, q; simpl; congruence. Qed.

(** Every character of [i] is a character of [j]. *)
Definition item_sub (i j : citem) : bool :=
  match i, j with
  | CRange lo hi, CRange lo' hi' => (lo' <=? lo) && (hi <=? hi')
  | CProp n p, CProp n' p' => Bool.eqb n n' && prop_eqb p p'
  | CRange lo hi, CProp _ _ => (lo =? hi) && in_item j lo
  | _, _ => false
  end.

Lemma item_sub_ok i j c : item_sub i j = true -> in_item i c = true -> in_item j c = true.
Proof.
  destruct i as [lo hi|n p], j as [lo' hi'|n' p']; cbn [item_sub]; try discriminate.
  - simpl. rewrite !andb_true_iff, !N.leb_le. lia.
  - rewrite andb_true_iff, N.eqb_eq. intros [-> H] H1. change ((hi <=? c) && (c <=? hi) = true) in H1.
    rewrite andb_true_iff, !N.leb_le in H1. replace c with hi by lia. exact H.
  - rewrite andb_true_iff. intros [H1 H2]. apply eqb_prop in H1. apply prop_eqb_eq in H2. subst; auto.
Qed.

(** [i] and [j] have no common character. *)
Definition item_disj (i j : citem) : bool :=
  match i, j with
  | CRange lo hi, CRange lo' hi' => (hi <? lo') || (hi' <? lo)
  | CRange lo hi, CProp _ _ => (lo =? hi) && negb (in_item j lo)
  | CProp _ _, CRange lo hi => (lo =? hi) && negb (in_item i lo)
  | CProp n p, CProp n' p' => xorb n n' && prop_eqb p p'
  end.

Lemma item_disj_ok i j c : item_disj i j = true -> in_item i c = true -> in_item j c = true -> False.
Proof.
  destruct i as [lo hi|n p], j as [lo' hi'|n' p']; cbn [item_disj].
  - simpl. rewrite orb_true_iff, !andb_true_iff, !N.ltb_lt, !N.leb_le. lia.
  - rewrite andb_true_iff, N.eqb_eq, negb_true_iff. intros [-> H] H1. change ((hi <=? c) && (c <=? hi) = true) in H1.
    rewrite andb_true_iff, !N.leb_le in H1. replace c with hi by lia. congruence.
  - rewrite andb_true_iff, N.eqb_eq, negb_true_iff. intros [-> H] H0 H1. change ((hi' <=? c) && (c <=? hi') = true) in H1.
    rewrite andb_true_iff, !N.leb_le in H1. replace c with hi' in H0 by lia. congruence.
  - rewrite andb_true_iff. intros [H1 H2]. apply prop_eqb_eq in H2; subst p'.
    simpl. destruct n, n', (has_prop p c); simpl in *; discriminate.
Qed.

(** The item has no character of the class. *)
Definition item_cls_disj (i : citem) (k : cls) : bool :=
  if c_neg k then existsb (item_sub i) (c_items k)
  else forallb (item_disj i) (c_items k).

Lemma item_cls_disj_ok i k c : item_cls_disj i k = true -> in_item i c = true -> in_cls k c = false.
Proof.
  unfold item_cls_disj, in_cls. destruct (c_neg k) eqn:E; intros H Hi.
  - apply existsb_exists in H as (j & Hj & Hs).
    assert (existsb (fun i0 => in_item i0 c) (c_items k) = true) as ->; auto.
    apply existsb_exists. exists j; split; auto. eapply item_sub_ok; eauto.
  - destruct (existsb (fun i0 => in_item i0 c) (c_items k)) eqn:Ex; auto.
    apply existsb_exists in Ex as (j & Hj & Hs). rewrite forallb_forall in H.
    exfalso; eapply item_disj_ok; eauto.
Qed.

Definition may (k l : cls) : bool :=
  match c_neg k, c_neg l with
  | false, _ => negb (forallb (fun i => item_cls_disj i l) (c_items k))
  | true, false => negb (forallb (fun i => item_cls_disj i k) (c_items l))
  | true, true => true
  end.

Lemma may_ok k l c : in_cls k c = true -> in_cls l c = true -> may k l = true.
Proof.
  unfold may. intros Hk Hl.
  assert (G : forall k l, c_neg k = false -> in_cls k c = true -> in_cls l c = true ->
              negb (forallb (fun i => item_cls_disj i l) (c_items k)) = true).
  { clear. intros k l En Hk Hl. apply negb_true_iff.
    destruct (forallb (fun i => item_cls_disj i l) (c_items k)) eqn:E; auto.
    rewrite forallb_forall in E. unfold in_cls in Hk. rewrite En, xorb_false_l in Hk.
    apply existsb_exists in Hk as (i & Hi & Hc). rewrite (item_cls_disj_ok i l c) in Hl; auto. }
  destruct (c_neg k) eqn:E1; [destruct (c_neg l) eqn:E2; auto|auto].
Qed.

(** ** Automata *)
Definition trans := (nat * cls * nat)%type.
Record auto := mk_auto { au_trans : list trans; au_start : nat; au_final : list nat }.

Inductive Suf (A : auto) : nat -> str -> Prop :=
| SufNil q : In q (au_final A) -> Suf A q []
| SufCons q l q' c w : In (q, l, q') (au_trans A) -> in_cls l c = true -> Suf A q' w -> Suf A q (c :: w).

(** [Pre A q b]: the run is in [q] after the (reversed) text [b]. *)
Inductive Pre (A : auto) : nat -> str -> Prop :=
| PreNil : Pre A (au_start A) []
| PreCons q l q' c b : Pre A q b -> In (q, l, q') (au_trans A) -> in_cls l c = true -> Pre A q' (c :: b).

Definition accepts (A : auto) (text : str) : Prop := Suf A (au_start A) text.

Definition mem (x : nat) (l : list nat) : bool := existsb (Nat.eqb x) l.
Lemma mem_in x l : mem x l = true <-> In x l.
Proof.
  unfold mem. rewrite existsb_exists. split.
  - intros (y & H & E). apply Nat.eqb_eq in E; congruence.
  - intros H. exists x; split; auto. apply Nat.eqb_refl.
Qed.

Definition add (x : nat) (l : list nat) : list nat := if mem x l then l else x :: l.
Definition union (a b : list nat) : list nat := fold_right add b a.
Lemma union_in a b x : In x (union a b) <-> In x a \/ In x b.
Proof.
  unfold union. induction a as [|y a IH]; cbn [fold_right].
  - simpl. tauto.
  - unfold add at 1. destruct (mem y (fold_right add b a)) eqn:E.
    + apply mem_in in E. simpl. split; [rewrite IH; tauto|].
      intros [[H|H]|H]; [subst; exact E|apply IH; auto|apply IH; auto].
    + simpl. rewrite IH. tauto.
Qed.

(** Every character of [k] is a character of [l]. *)
Definition cls_sub (k l : cls) : bool :=
  negb (c_neg k) && negb (c_neg l) && forallb (fun i => existsb (item_sub i) (c_items l)) (c_items k).
Lemma cls_sub_ok k l c : cls_sub k l = true -> in_cls k c = true -> in_cls l c = true.
Proof.
  unfold cls_sub, in_cls. rewrite !andb_true_iff, !negb_true_iff. intros [[-> ->] H]. rewrite !xorb_false_l. intros Hc.
  apply existsb_exists in Hc as (i & Hi & Hc). rewrite forallb_forall in H. specialize (H i Hi). apply existsb_exists in H as (j & Hj & Hs).
  apply existsb_exists. exists j. split; auto. eapply item_sub_ok; eauto.
Qed.

Section Analysis.
Variable A : auto.

Definition all_states : list nat :=
  fold_right add [au_start A] (map (fun t => snd t) (au_trans A)).

Definition go (k : cls) (S : list nat) : list nat :=
  fold_right (fun t acc => let '(q, l, q') := t in
                           if mem q S && may k l then add q' acc else acc) [] (au_trans A).

Definition newline_cls : cls := mk_cls false [CRange 10 10].
Definition incoming (k : cls) (q : nat) : bool :=
  existsb (fun t => let '(_, l, q') := t in Nat.eqb q' q && may k l) (au_trans A).
Definition outgoing (k : cls) (q : nat) : bool :=
  existsb (fun t => let '(q0, l, _) := t in Nat.eqb q0 q && may k l) (au_trans A).

Definition may_assert (a : assertion) (q : nat) : bool :=
  match a with
  | SOT => Nat.eqb q (au_start A)
  | EOT => mem q (au_final A)
  | SOL => Nat.eqb q (au_start A) || incoming newline_cls q
  | EOL => mem q (au_final A) || outgoing newline_cls q
  | WB => true
  end.

Definition is_nil {X} (l : list X) : bool := match l with [] => true | _ => false end.

(** Closure of [S] under [f]. *)
Fixpoint closure (n : nat) (f : list nat -> list nat) (S : list nat) : list nat :=
  match n with
  | O => S
  | Datatypes.S n' =>
      let S' := union (f S) S in
      if Nat.eqb (List.length S') (List.length S) then S else closure n' f S'
  end.

Definition closed (f : list nat -> list nat) (S : list nat) : bool := forallb (fun q => mem q S) (f S).

Fixpoint post (r : re) (S : list nat) : list nat :=
  match r with
  | REps => S
  | RCls k => go k S
  | RSeq a b => post b (post a S)
  | RAlt a b => union (post a S) (post b S)
  | RStar _ a =>
      let C := closure (List.length all_states) (post a) S in
      if closed (post a) C && forallb (fun q => mem q C) S then C else all_states
  | RGroup _ a => post a S
  | RBackref _ => if is_nil S then [] else all_states
  | RLook a => filter (fun q => negb (is_nil (post a [q]))) S
  | RNLook a =>
      match a with
      | RCls k => filter (fun q => mem q (au_final A) ||
                    existsb (fun t => Nat.eqb (fst (fst t)) q && negb (cls_sub (snd (fst t)) k)) (au_trans A)) S
      | _ => S
      end
  | RBack k => filter (incoming k) S
  | RAssert a => filter (may_assert a) S
  end.

Definition Inv (s : mst) (q : nat) : Prop := Pre A q (m_before s) /\ Suf A q (m_after s).

Lemma pre_all q b : Pre A q b -> In q all_states.
Proof.
  assert (G : forall l, In (au_start A) (fold_right add [au_start A] l) /\
              forall x, In x l -> In x (fold_right add [au_start A] l)).
  { intros l. split.
    - apply (union_in l [au_start A]). right; simpl; auto.
    - intros x Hx. apply (union_in l [au_start A]). auto. }
  intros H. unfold all_states. inversion H; subst.
  - apply (proj1 (G _)).
  - apply (proj2 (G _)). apply in_map_iff. exists (q0, l, q); auto.
Qed.

Lemma go_ok k S q l q' c : In q S -> In (q, l, q') (au_trans A) -> in_cls l c = true -> in_cls k c = true ->
  In q' (go k S).
Proof.
  intros Hq Ht Hl Hk. unfold go. induction (au_trans A) as [|t ts IH]; [destruct Ht|].
  cbn [fold_right]. destruct Ht as [->|Ht].
  - assert (mem q S = true) as -> by (apply mem_in; auto). rewrite (may_ok k l c); auto. cbn [andb].
    unfold add. destruct (mem q' _) eqn:E; [apply mem_in in E; auto|left; auto].
  - specialize (IH Ht). destruct t as [[q0 l0] q1]. destruct (mem q0 S && may k l0); auto.
    unfold add. destruct (mem q1 _); [auto|right; auto].
Qed.

Lemma suf_moved s w s' : moved s w s' -> forall q, Inv s q -> exists q', Inv s' q'.
Proof.
  revert s. induction w as [|c w IH]; intros s [H1 H2] q [Hp Hs].
  - exists q. split; [rewrite H2; auto|simpl in H1; rewrite <- H1; auto].
  - simpl in H1. rewrite H1 in Hs. inversion Hs; subst.
    apply (IH (mk_mst (c :: m_before s) (w ++ m_after s') []) ) with (q := q').
    + split; simpl; auto. rewrite H2. simpl. rewrite <- app_assoc. reflexivity.
    + split; simpl; auto. econstructor; eauto.
Qed.

Lemma post_sound r s s' : Mat r s s' -> forall S q, In q S -> Inv s q ->
  exists q', In q' (post r S) /\ Inv s' q'.
Proof.
  induction 1 as [s|k s x rest Ha Hk|a b s s1 s2 H1 IH1 H2 IH2|a b s s1 H1 IH1|a b s s1 H1 IH1
                 |g a s|g a s s1 s2 H1 IH1 H2 IH2|n a s s1 H1 IH1|n s v s1 Hf He|a s s1 H1 IH1
                 |a s Hm|k s x rest Hb Hk|a s Has]; intros S q Hq HI; cbn [post].
  - eauto.
  - destruct HI as [Hp Hs]. rewrite Ha in Hs. inversion Hs; subst.
    exists q'. split; [eapply go_ok; eauto|]. split; simpl; auto. econstructor; eauto.
  - destruct (IH1 S q Hq HI) as (q1 & Hq1 & HI1). exact (IH2 _ q1 Hq1 HI1).
  - destruct (IH1 S q Hq HI) as (q1 & Hq1 & HI1). exists q1; rewrite union_in; auto.
  - destruct (IH1 S q Hq HI) as (q1 & Hq1 & HI1). exists q1; rewrite union_in; auto.
  - set (C := closure _ _ S). destruct (closed (post a) C && forallb (fun q => mem q C) S) eqn:E.
    + apply andb_true_iff in E as [_ E]. rewrite forallb_forall in E. exists q; split; auto.
      apply mem_in; auto.
    + exists q; split; auto. eapply pre_all; apply HI.
  - set (C := closure _ _ S).
    destruct (closed (post a) C && forallb (fun q => mem q C) S) eqn:E.
    + apply andb_true_iff in E as [E1 E2]. unfold closed in E1. rewrite forallb_forall in E1, E2.
      assert (HqC : In q C) by (apply mem_in; auto).
      destruct (IH1 C q HqC HI) as (q1 & Hq1 & HI1).
      assert (Hq1C : In q1 C) by (apply mem_in; auto).
      (* the closure of a closed set is itself *)
      assert (HCC : closure (List.length all_states) (post a) C = C).
      { assert (Hu : union (post a C) C = C).
        { unfold union. revert E1. generalize (post a C) as l. induction l as [|y l IHl]; intros Hl; simpl; auto.
          rewrite IHl by (intros z Hz; apply Hl; right; auto).
          unfold add. rewrite (Hl y) by (left; auto). reflexivity. }
        destruct (List.length all_states); cbn [closure]; auto. rewrite Hu, Nat.eqb_refl. reflexivity. }
      destruct (IH2 C q1 Hq1C HI1) as (q2 & Hq2 & HI2). exists q2; split; auto.
      cbn [post] in Hq2. rewrite HCC in Hq2.
      assert (closed (post a) C = true) as Hc1.
      { unfold closed. apply forallb_forall. auto. }
      assert (forallb (fun q => mem q C) C = true) as Hc2.
      { apply forallb_forall. intros z Hz. apply mem_in; auto. }
      rewrite Hc1, Hc2 in Hq2. exact Hq2.
    + destruct (Mat_moved _ _ _ H1) as [w1 Hw1]. destruct (Mat_moved _ _ _ H2) as [w2 Hw2].
      destruct (suf_moved _ _ _ (moved_trans _ _ _ _ _ Hw1 Hw2) q HI) as [q' HI'].
      exists q'; split; auto. eapply pre_all; apply HI'.
  - destruct (IH1 S q Hq HI) as (q1 & Hq1 & HI1). exists q1; split; auto.
  - apply eat_lit_moved in He as [He _]. destruct (suf_moved _ _ _ He q HI) as [q' HI'].
    destruct S; [destruct Hq|]. exists q'; split; auto. eapply pre_all; apply HI'.
  - exists q; split; auto. apply filter_In; split; auto.
    destruct (IH1 [q] q (or_introl eq_refl) HI) as (q1 & Hq1 & _).
    destruct (post a [q]); [destruct Hq1|reflexivity].
  - assert (exists q', In q' S /\ Inv s q') as E by eauto. destruct a as [|k| | | | | | | | |]; try exact E.
    exists q. split; auto. apply filter_In. split; auto. destruct HI as [_ Hs]. cbn [m] in Hm. destruct (m_after s) as [|x rest]; inversion Hs; subst.
    + apply orb_true_iff. left. apply mem_in. auto.
    + apply orb_true_iff. right. apply existsb_exists. exists (q, l, q'). split; auto. cbn [fst snd]. rewrite Nat.eqb_refl. cbn [andb]. apply negb_true_iff.
      destruct (cls_sub l k) eqn:E'; auto. rewrite (cls_sub_ok l k x) in Hm by auto. discriminate.
  - exists q; split; auto. apply filter_In; split; auto.
    destruct HI as [Hp _]. rewrite Hb in Hp. inversion Hp; subst.
    apply existsb_exists. exists (q0, l, q); split; auto. rewrite Nat.eqb_refl. simpl. eapply may_ok; eauto.
  - exists q; split; auto. apply filter_In; split; auto. destruct HI as [Hp Hs].
    assert (Hnl : forall c, c =? 10 = true -> in_cls newline_cls c = true).
    { intros c Hc. apply N.eqb_eq in Hc; subst; reflexivity. }
    destruct a; simpl in Has; simpl.
    + destruct (m_before s); [|discriminate]. inversion Hp; subst. apply Nat.eqb_refl.
    + destruct (m_after s); [|discriminate]. inversion Hs; subst. apply mem_in; auto.
    + destruct (m_before s) as [|c b]; inversion Hp; subst.
      * rewrite Nat.eqb_refl; reflexivity.
      * apply orb_true_iff; right. apply existsb_exists. exists (q0, l, q); split; auto.
        rewrite Nat.eqb_refl; simpl. eapply may_ok; eauto.
    + destruct (m_after s) as [|c b]; inversion Hs; subst.
      * apply orb_true_iff; left. apply mem_in; auto.
      * apply orb_true_iff; right. apply existsb_exists. exists (q, l, q'); split; auto.
        rewrite Nat.eqb_refl; simpl. eapply may_ok; eauto.
    + reflexivity.
Qed.

(** The pattern matches nowhere in a text of the family. *)
Definition never (r : re) : bool := is_nil (post r all_states).

Lemma suf_split : forall w v q b, Pre A q b -> Suf A q (w ++ v) ->
  exists q', Pre A q' (rev w ++ b) /\ Suf A q' v.
Proof.
  induction w as [|c w IH]; intros v q b Hp Hs; simpl in *.
  - eauto.
  - inversion Hs; subst. destruct (IH v q' (c :: b)) as (q2 & Hq1 & Hq2); auto.
    + econstructor; eauto.
    + exists q2. rewrite <- app_assoc. auto.
Qed.

Lemma never_ok r text : accepts A text -> never r = true -> no_match r text.
Proof.
  intros Ha Hn w v E. apply match_at_none_of. intros [s' Hm].
  unfold accepts in Ha. rewrite E in Ha.
  destruct (suf_split w v (au_start A) [] (PreNil A) Ha) as (q & Hp & Hs).
  rewrite app_nil_r in Hp.
  destruct (post_sound _ _ _ Hm all_states q (pre_all _ _ Hp) (conj Hp Hs)) as (q' & Hq' & _).
  unfold never in Hn. destruct (post r all_states); [destruct Hq'|discriminate].
Qed.

End Analysis.
