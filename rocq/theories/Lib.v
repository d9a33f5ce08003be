(** General lemmas on lists, strings and numbers. *)
From Coq Require Export ZArith ZifyBool ZifyNat ZifyN.
From Verif Require Import Str.
Ltac Zify.zify_post_hook ::= Z.div_mod_to_equations.

Arguments N.add : simpl never.
Arguments N.sub : simpl never.
Arguments N.mul : simpl never.
Arguments N.div : simpl never.
Arguments N.modulo : simpl never.
Arguments N.eqb : simpl nomatch.
Arguments N.leb : simpl nomatch.
Arguments N.ltb : simpl nomatch.

Lemma contains_char_in c s : contains_char c s = true <-> In c s.
Proof.
  unfold contains_char. rewrite existsb_exists. split.
  - intros (x & H & E). apply N.eqb_eq in E; congruence.
  - intros H; exists c; split; auto. apply N.eqb_refl.
Qed.
Lemma contains_char_nin c s : contains_char c s = false <-> ~ In c s.
Proof. rewrite <- contains_char_in. destruct (contains_char c s); split; congruence. Qed.

Lemma starts_with_app p s : starts_with p (p ++ s) = true.
Proof. induction p; simpl; auto. rewrite N.eqb_refl; auto. Qed.
Lemma starts_with_iff p s : starts_with p s = true <-> exists r, s = p ++ r.
Proof.
  split.
  - revert s. induction p as [|x p IH]; intros s H; [exists s; reflexivity|].
    destruct s as [|y s]; [discriminate H|]. simpl in H. apply andb_true_iff in H as [H1 H2].
    apply N.eqb_eq in H1; subst. apply IH in H2 as [r ->]. exists r; reflexivity.
  - intros [r ->]. apply starts_with_app.
Qed.

Lemma trim_start_by_nil p s : trim_start_by p s = [] <-> forallb p s = true.
Proof.
  induction s as [|c s IH]; simpl; [tauto|].
  destruct (p c) eqn:E; simpl; [auto|split; congruence].
Qed.
Lemma trim_start_by_head p s c r : trim_start_by p s = c :: r -> p c = false.
Proof.
  induction s as [|x s IH]; simpl; [discriminate|].
  destruct (p x) eqn:E; auto. intros H; inversion H; subst; auto.
Qed.
Lemma trim_start_by_split p s : exists w, s = w ++ trim_start_by p s /\ forallb p w = true.
Proof.
  induction s as [|c s [w [H1 H2]]]; simpl; [exists []; auto|].
  destruct (p c) eqn:E; [|exists []; auto].
  exists (c :: w); simpl. rewrite E, H2; split; auto. rewrite <- H1; reflexivity.
Qed.
Lemma trim_start_by_id p s : match s with [] => True | c :: _ => p c = false end -> trim_start_by p s = s.
Proof. destruct s; simpl; auto. intros ->; auto. Qed.
Lemma forallb_rev {A} (p : A -> bool) l : forallb p (rev l) = forallb p l.
Proof.
  induction l as [|x l IH]; simpl; auto. rewrite forallb_app, IH. simpl. rewrite andb_true_r.
  apply andb_comm.
Qed.
Lemma trim_end_by_nil p s : trim_end_by p s = [] <-> forallb p s = true.
Proof.
  unfold trim_end_by. rewrite <- (forallb_rev p s). rewrite <- trim_start_by_nil.
  split; intros H.
  - apply (f_equal (@rev N)) in H. rewrite rev_involutive in H. exact H.
  - rewrite H; reflexivity.
Qed.
Lemma trim_end_by_split p s : exists w, s = trim_end_by p s ++ w /\ forallb p w = true.
Proof.
  unfold trim_end_by. destruct (trim_start_by_split p (rev s)) as (w & H1 & H2).
  exists (rev w). rewrite forallb_rev; split; auto.
  rewrite <- rev_app_distr, <- H1, rev_involutive; reflexivity.
Qed.
Lemma trim_end_by_last p s c r : trim_end_by p s = r ++ [c] -> p c = false.
Proof.
  unfold trim_end_by. intros H. apply (f_equal (@rev N)) in H.
  rewrite rev_involutive, rev_app_distr in H. simpl in H. eapply trim_start_by_head; eauto.
Qed.
Lemma trim_end_by_id p s : (forall r c, s = r ++ [c] -> p c = false) -> trim_end_by p s = s.
Proof.
  intros H. unfold trim_end_by. rewrite trim_start_by_id; [apply rev_involutive|].
  destruct (rev s) as [|c r] eqn:E; auto. apply (H (rev r) c).
  rewrite <- (rev_involutive s), E; reflexivity.
Qed.
Lemma trim_by_nil p s : trim_by p s = [] <-> forallb p s = true.
Proof.
  unfold trim_by. rewrite trim_end_by_nil. split.
  - intros H. destruct (trim_start_by_split p s) as (w & H1 & H2). rewrite H1, forallb_app, H2; auto.
  - intros H. apply trim_start_by_nil in H. rewrite H; reflexivity.
Qed.

Lemma is_empty_nil s : is_empty s = true <-> s = [].
Proof. destruct s; simpl; split; congruence. Qed.

(** ** Decimal numbers *)
Lemma dec_value_app s c : dec_value (s ++ [c]) = dec_value s * 10 + (c - 48).
Proof. unfold dec_value. rewrite fold_left_app. reflexivity. Qed.

Lemma digits_go_S f n acc : digits_go (S f) n acc =
  if n <? 10 then (48 + n mod 10) :: acc else digits_go f (n / 10) ((48 + n mod 10) :: acc).
Proof. reflexivity. Qed.

Lemma digits_go_value : forall fuel n acc, n < 2 ^ N.of_nat fuel ->
  exists d, digits_go (S fuel) n acc = d ++ acc /\ d <> [] /\ forallb is_digit_ascii d = true /\ dec_value d = n.
Proof.
  induction fuel as [|fuel IH]; intros n acc Hn; rewrite digits_go_S.
  - assert (n = 0) by (change (2 ^ N.of_nat 0) with 1 in Hn; lia). subst. exists [48]. repeat split; try discriminate.
  - assert (Hd : is_digit_ascii (48 + n mod 10) = true).
    { unfold is_digit_ascii. pose proof (N.mod_upper_bound n 10 ltac:(lia)).
      apply andb_true_iff; rewrite !N.leb_le; lia. }
    destruct (n <? 10) eqn:E.
    + apply N.ltb_lt in E. exists [48 + n mod 10]. repeat split; try discriminate.
      * simpl. rewrite Hd; reflexivity.
      * rewrite N.mod_small by lia. unfold dec_value; cbn [fold_left]. lia.
    + apply N.ltb_ge in E.
      assert (H2 : n / 10 < 2 ^ N.of_nat fuel).
      { rewrite Nat2N.inj_succ, N.pow_succ_r' in Hn. apply N.div_lt_upper_bound; lia. }
      destruct (IH (n / 10) ((48 + n mod 10) :: acc) H2) as (d & H3 & H4 & H5 & H6).
      exists (d ++ [48 + n mod 10]). rewrite H3. repeat split.
      * rewrite <- app_assoc; reflexivity.
      * destruct d; discriminate.
      * rewrite forallb_app, H5. simpl. rewrite Hd; reflexivity.
      * rewrite dec_value_app, H6. pose proof (N.div_mod n 10 ltac:(lia)). lia.
Qed.

Lemma dec_spec n : dec n <> [] /\ forallb is_digit_ascii (dec n) = true /\ dec_value (dec n) = n.
Proof.
  unfold dec. destruct (digits_go_value (N.size_nat n) n []) as (d & H1 & H2 & H3 & H4).
  - destruct n as [|p]; [reflexivity|]. pose proof (N.size_gt (N.pos p)) as H.
    replace (N.of_nat (N.size_nat (N.pos p))) with (N.size (N.pos p)); auto.
    simpl. rewrite <- (N2Nat.id (N.pos (Pos.size p))). f_equal. simpl.
    clear. induction p; simpl; auto; rewrite Pos2Nat.inj_succ, <- IHp; reflexivity.
  - rewrite H1, app_nil_r. auto.
Qed.

Lemma dec_inj a b : dec a = dec b -> a = b.
Proof. intros H. rewrite <- (proj2 (proj2 (dec_spec a))), <- (proj2 (proj2 (dec_spec b))), H; reflexivity. Qed.

Lemma dec_digits n : Forall (fun c => 48 <= c <= 57) (dec n).
Proof.
  apply Forall_forall. intros c Hc. destruct (dec_spec n) as (_ & H & _).
  rewrite forallb_forall in H. apply H in Hc. unfold is_digit_ascii in Hc.
  rewrite andb_true_iff, !N.leb_le in Hc. lia.
Qed.

Lemma digit_not_plus c : is_digit_ascii c = true -> (c =? 43) = false.
Proof. unfold is_digit_ascii. rewrite andb_true_iff, !N.leb_le, N.eqb_neq. lia. Qed.

Lemma parse_uint_dec max n : n <= max -> parse_uint max (dec n) = Some n.
Proof.
  intros H. destruct (dec_spec n) as (H1 & H2 & H3). unfold parse_uint.
  destruct (dec n) as [|c d] eqn:E; [congruence|].
  assert (Hc : (c =? 43) = false).
  { apply digit_not_plus. simpl in H2. apply andb_true_iff in H2; tauto. }
  rewrite Hc, H2, H3. apply N.leb_le in H; rewrite H; reflexivity.
Qed.
Lemma parse_uint_dec_big max n : max < n -> parse_uint max (dec n) = None.
Proof.
  intros H. destruct (dec_spec n) as (H1 & H2 & H3). unfold parse_uint.
  destruct (dec n) as [|c d] eqn:E; [congruence|].
  assert (Hc : (c =? 43) = false).
  { apply digit_not_plus. simpl in H2. apply andb_true_iff in H2; tauto. }
  rewrite Hc, H2, H3. apply N.leb_gt in H; rewrite H; reflexivity.
Qed.

(** Evaluates string literals. *)
Ltac lits := repeat match goal with
  |- context [u ?s] => let v := eval vm_compute in (u s) in change (u s) with v
  end.
Ltac lits_in H := repeat match type of H with
  context [u ?s] => let v := eval vm_compute in (u s) in change (u s) with v in H
  end.
