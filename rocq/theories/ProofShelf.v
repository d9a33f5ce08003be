(** Restoring fragments. *)
From Coq Require Import List NArith Lia Bool.
From Verif Require Import Str ModelBase ModelHtml ModelInline ModelParser Lib SpecPlain SpecState SpecNewlines ProofMemory ProofParas ProofSections ProofNewlines SpecShelf ProofLinks.
Import ListNotations.
Local Open Scope N_scope.
#[local] Arguments u : simpl never.

Section Prefix.
Context (uid : str) (HU : simple_uid uid).
Lemma uid_shape : exists r, uid = 116 :: 101 :: 120 :: r /\ ~ In 120 r /\ exists r', r = r' ++ [58].
Proof.
  destruct HU as (id & E & H). exists (u "tileRef:" ++ id ++ u ":"). split; [rewrite E; reflexivity|]. split.
  - intros F. apply in_app_or in F. destruct F as [F|F]; [vm_compute in F; intuition discriminate|].
    apply in_app_or in F. destruct F as [F|F]; [|vm_compute in F; intuition discriminate]. apply H in F. vm_compute in F. intuition discriminate.
  - exists (u "tileRef:" ++ id). rewrite <- app_assoc. reflexivity.
Qed.
(** No proper part of the prefix is both its start and its end. *)
Lemma unbordered p q r : uid = p ++ q -> uid = q ++ r -> p = [] \/ q = [].
Proof.
  destruct uid_shape as (w & E & Hx & w' & Ew). intros Hp Hq. destruct p as [|p0 p]; [auto|right].
  destruct q as [|q0 [|q1 [|q2 q]]]; [reflexivity| | |]; exfalso.
  - rewrite E in Hp, Hq. inversion Hq; subst q0. rewrite Ew in Hp. change (116 :: 101 :: 120 :: w' ++ [58]) with ((116 :: 101 :: 120 :: w') ++ [58]) in Hp.
    apply app_inj_tail in Hp. destruct Hp as [_ Hp]. discriminate.
  - rewrite E in Hp, Hq. inversion Hq; subst q0 q1. rewrite Ew in Hp.
    change (116 :: 101 :: 120 :: w' ++ [58]) with ((116 :: 101 :: 120 :: w') ++ [58]) in Hp.
    change ((p0 :: p) ++ [116; 101]) with ((p0 :: p) ++ [116] ++ [101]) in Hp. rewrite app_assoc in Hp.
    apply app_inj_tail in Hp. destruct Hp as [_ Hp]. discriminate.
  - rewrite E in Hp, Hq. inversion Hq; subst q0 q1 q2.
    destruct p as [|p1 [|p2 p]]; cbn [app] in Hp; inversion Hp; subst. apply Hx. rewrite H4. apply in_or_app. right; right; right; left. reflexivity.
Qed.
Lemma tail_no (k : kind) i : ~ In 116 (dec i ++ ending k) /\ ~ In 120 (dec i ++ ending k) /\ (2 <= List.length (dec i ++ ending k))%nat.
Proof.
  repeat split.
  - intros F. apply in_app_or in F. destruct F as [F|F]; [pose proof (dec_digits i) as D; rewrite Forall_forall in D; apply D in F; lia|].
    destruct k; vm_compute in F; intuition discriminate.
  - intros F. apply in_app_or in F. destruct F as [F|F]; [pose proof (dec_digits i) as D; rewrite Forall_forall in D; apply D in F; lia|].
    destruct k; vm_compute in F; intuition discriminate.
  - rewrite app_length. assert (4 <= List.length (ending k))%nat by (destruct k; vm_compute; lia). lia.
Qed.
(** The prefix starts nowhere inside a placeholder but at its start. *)
Lemma inside_mark k i a c b R : mark_text uid k i = a ++ c :: b -> a <> [] -> starts_with uid (c :: b ++ R) = false.
Proof.
  intros E Ha. destruct (starts_with uid (c :: b ++ R)) eqn:S; auto. exfalso. apply starts_with_iff in S. destruct S as (r & S).
  destruct uid_shape as (w & Eu & Hx & _). destruct (tail_no k i) as (T1 & T2 & T3). unfold mark_text in E. set (v := dec i ++ ending k) in *. clearbody v.
  rewrite Eu in S. cbn [app] in S. inversion S as [[S0 S1]]. subst c. rewrite Eu in E.
  destruct a as [|a0 [|a1 [|a2 a]]]; [congruence| | |]; cbn [app] in E; inversion E; subst a0; try discriminate. 
  match goal with H : w ++ v = a ++ 116 :: b |- _ => rename H into E2 end.
  assert (exists w2, 116 :: b = w2 ++ v /\ w = a ++ w2 /\ w2 <> []) as (w2 & E3 & E4 & E5).
  { clear - E2 T1. revert w E2. induction a as [|x a IH]; intros w E2.
    - exists w. cbn [app] in *. repeat split; auto. intros ->. cbn [app] in E2. apply T1. rewrite E2. left; reflexivity.
    - destruct w as [|y w]; cbn [app] in E2; [exfalso; apply T1; rewrite E2; right; apply in_or_app; right; left; reflexivity|].
      inversion E2; subst. destruct (IH w H1) as (w2 & A & B & C). exists w2. subst w. auto. }
  destruct w2 as [|y w2]; [congruence|]. cbn [app] in E3. inversion E3; subst y b. rewrite <- app_assoc in S1.
  assert (~ In 120 (w2 ++ v)) as Hn. { intros F. apply in_app_or in F. destruct F; [|tauto]. apply Hx. rewrite E4. apply in_or_app. right. right. auto. }
  rewrite app_assoc in S1. assert (2 <= List.length (w2 ++ v))%nat as L by (rewrite app_length; lia).
  destruct (w2 ++ v) as [|z0 [|z1 z]]; [cbn in L; lia|cbn in L; lia|]. cbn [app] in S1. inversion S1; subst. apply Hn. right. left. reflexivity.
Qed.

(** ** Replacing one placeholder *)
Lemma replace_skip k v L : forall R, k <> [] -> (forall a c b, L = a ++ c :: b -> starts_with k (c :: b ++ R) = false) ->
  replace_str (L ++ R) k v = L ++ replace_str R k v.
Proof.
  induction L as [|c L IH]; intros R Hk H; [reflexivity|]. destruct k as [|k0 k]; [congruence|]. cbn [replace_str].
  pose proof (H [] c L eq_refl) as H0. change ((c :: L) ++ R) with (c :: (L ++ R)). cbn [replace_go]. rewrite H0.
  change ((c :: L) ++ replace_go (k0 :: k) v 0 R) with (c :: (L ++ replace_go (k0 :: k) v 0 R)). f_equal.
  specialize (IH R). cbn [replace_str] in IH. apply IH; [discriminate|]. intros a c' b E. apply (H (c :: a)). rewrite E. reflexivity.
Qed.
Lemma replace_drop k v : forall w R, replace_go k v (List.length w) (w ++ R) = replace_go k v 0 R.
Proof.
  induction w as [|c w IH]; intros R; [reflexivity|]. cbn [List.length app replace_go]. apply IH.
Qed.
Lemma starts_self k R : starts_with k (k ++ R) = true.
Proof. apply starts_with_iff. eauto. Qed.
Lemma replace_hit k v R : k <> [] -> replace_str (k ++ R) k v = v ++ replace_str R k v.
Proof.
  intros Hk. destruct k as [|c k]; [congruence|]. unfold replace_str. pose proof (starts_self (c :: k) R) as SS. cbn [app] in *. cbn [replace_go]. rewrite SS.
  f_equal. cbn [List.length]. replace (S (List.length k) - 1)%nat with (List.length k) by lia. apply replace_drop.
Qed.
Lemma starts_more p q s : starts_with p s = false -> starts_with (p ++ q) s = false.
Proof.
  intros H. destruct (starts_with (p ++ q) s) eqn:E; auto. apply starts_with_iff in E. destruct E as (r & ->). rewrite <- app_assoc in H.
  rewrite starts_self in H. discriminate.
Qed.
Lemma mark_ne k i : mark_text uid k i <> [].
Proof. destruct uid_shape as (w & E & _). unfold mark_text. rewrite E. discriminate. Qed.
Lemma digits_then d1 d2 r1 r2 : Forall (fun c => 48 <= c <= 57) d1 -> Forall (fun c => 48 <= c <= 57) d2 -> d1 ++ 58 :: r1 = d2 ++ 58 :: r2 -> d1 = d2 /\ r1 = r2.
Proof.
  revert d2 r1 r2. induction d1 as [|c d1 IH]; intros [|c2 d2] r1 r2 H1 H2 E; cbn [app] in E; inversion E; subst; auto.
  - inversion H2; subst. lia. - inversion H1; subst. lia. - inversion H1; inversion H2; subst. destruct (IH d2 r1 r2); auto. subst. auto.
Qed.
Lemma ending_58 k : exists e, ending k = 58 :: e.
Proof. destruct k; eexists; reflexivity. Qed.
Lemma mark_differs k i j R : (k, i) <> (Fragment, j) -> starts_with (mark_text uid Fragment j) (mark_text uid k i ++ R) = false.
Proof.
  intros H. destruct (starts_with _ _) eqn:S; auto. exfalso. apply starts_with_iff in S. destruct S as (r & S). unfold mark_text in S.
  rewrite <- !app_assoc in S. apply app_inv_head in S. destruct (ending_58 k) as (e & E). 
  assert (ending k ++ R = 58 :: e ++ R) as E1 by (rewrite E; reflexivity). assert (ending Fragment ++ r = 58 :: u "shelve" ++ r) as E2 by reflexivity.
  rewrite E1, E2 in S. apply digits_then in S; auto using dec_digits. destruct S as [S1 S2]. apply dec_inj in S1. subst j.
  destruct k; [congruence| | |]; apply (f_equal (fun x => 58 :: x)) in S2; rewrite <- E1, <- E2 in S2; cbn in S2; discriminate.
Qed.
Lemma mark_inj k i k' j : mark_text uid k i = mark_text uid k' j -> k = k' /\ i = j.
Proof.
  intros H. unfold mark_text in H. apply app_inv_head in H. destruct (ending_58 k) as (e & E), (ending_58 k') as (e' & E'). rewrite E, E' in H.
  apply digits_then in H; auto using dec_digits. destruct H as [H1 H2]. apply dec_inj in H1. split; auto. subst e'. rewrite <- E in E'. destruct k, k'; auto; discriminate.
Qed.
Lemma replace_other k i j v R : (k, i) <> (Fragment, j) ->
  replace_str (mark_text uid k i ++ R) (mark_text uid Fragment j) v = mark_text uid k i ++ replace_str R (mark_text uid Fragment j) v.
Proof.
  intros H. apply replace_skip; [apply mark_ne|]. intros a c b E. destruct a as [|a0 a].
  - change (c :: b ++ R) with (([] ++ c :: b) ++ R). rewrite <- E. apply mark_differs; auto.
  - unfold mark_text at 1. apply starts_more. eapply inside_mark; [exact E|discriminate].
Qed.

(** ** Replacing one placeholder in pieces *)
Definition put (j : N) (f : list piece) (ps : list piece) : list piece :=
  flat_map (fun p => match p with Mark Fragment i => if i =? j then f else [p] | _ => [p] end) ps.
Lemma render_app ps qs : render uid (ps ++ qs) = render uid ps ++ render uid qs.
Proof. apply flat_map_app. Qed.
Lemma only_marks_tail p ps : only_marks uid (p :: ps) -> only_marks uid ps.
Proof. intros H a ls b x y E. apply (H (p :: a) ls b). rewrite E. reflexivity. Qed.
Lemma lits_split ps : exists ls tl, ps = map Lit ls ++ tl /\ (tl = [] \/ exists k i tl', tl = Mark k i :: tl').
Proof.
  induction ps as [|[t|k i] ps (ls & tl & E & H)]; [exists [], []; auto| |].
  - exists (t :: ls), tl. subst. auto.
  - exists [], (Mark k i :: ps). split; auto. right. eauto.
Qed.
Lemma render_lits ls : render uid (map Lit ls) = List.concat ls.
Proof. induction ls as [|t ls IH]; [reflexivity|]. cbn [map List.concat]. unfold render in *. cbn [flat_map]. rewrite IH. reflexivity. Qed.
Lemma overlap (p q R x : str) : p ++ q = x ++ R -> (exists z, p = x ++ z) \/ (exists z, z <> [] /\ x = p ++ z /\ q = z ++ R).
Proof.
  revert q R x. induction p as [|c p IH]; intros q R x E.
  - cbn [app] in E. destruct x as [|d x]; [left; exists []; reflexivity|right]. exists (d :: x). split; [discriminate|]. auto.
  - destruct x as [|d x]; [left; exists (c :: p); reflexivity|]. cbn [app] in E. inversion E; subst. destruct (IH _ _ _ H1) as [(z & ->)|(z & A & -> & ->)]; [left; exists z; reflexivity|right; exists z; auto].
Qed.
Lemma in_literal t ps a c b : only_marks uid (Lit t :: ps) -> t = a ++ c :: b -> starts_with uid (c :: b ++ render uid ps) = false.
Proof.
  intros H E. destruct (starts_with _ _) eqn:S; auto. exfalso. apply starts_with_iff in S. destruct S as (r & S).
  destruct (lits_split ps) as (ls & tl & Eps & Htl). subst ps. rewrite render_app, render_lits in S.
  change (c :: b ++ List.concat ls ++ render uid tl) with ((c :: b) ++ (List.concat ls ++ render uid tl)) in S.
  rewrite app_assoc in S. apply overlap in S. destruct S as [(z & S)|(z & Hz & S1 & S2)].
  - apply (H [] (t :: ls) tl a z); [reflexivity|]. cbn [List.concat]. rewrite E, <- app_assoc. f_equal. exact S.
  - destruct Htl as [->|(k & i & tl' & ->)]; [cbn [render flat_map] in S2; destruct z; [congruence|discriminate]|].
    unfold render in S2. cbn [flat_map] in S2. unfold mark_text in S2. rewrite <- !app_assoc in S2.
    assert (exists w, uid = z ++ w) as (w & Ew).
    { apply overlap in S2. destruct S2 as [(w & ->)|(w & _ & S2 & _)]; [eauto|].
      exfalso. apply (f_equal (@List.length N)) in S1, S2. rewrite !app_length in *. cbn [List.length] in *. lia. }
    destruct (unbordered _ _ _ S1 Ew) as [F|F]; [discriminate|congruence].
Qed.
Lemma replace_put j f ps : only_marks uid ps -> replace_str (render uid ps) (mark_text uid Fragment j) (render uid f) = render uid (put j f ps).
Proof.
  induction ps as [|[t|k i] ps IH]; intros H.
  - cbn [render flat_map put]. destruct (mark_text uid Fragment j) eqn:E; [destruct (mark_ne _ _ E)|reflexivity].
  - change (render uid (Lit t :: ps)) with (t ++ render uid ps). rewrite replace_skip.
    + rewrite IH by (eapply only_marks_tail; eauto). reflexivity.
    + apply mark_ne.
    + intros a c b E. unfold mark_text. apply starts_more. eapply in_literal; eauto.
  - change (render uid (Mark k i :: ps)) with (mark_text uid k i ++ render uid ps). pose proof (only_marks_tail _ _ H) as H'.
    assert ((k = Fragment /\ i = j) \/ (k, i) <> (Fragment, j)) as [[-> ->]|D].
    { destruct k; try (right; discriminate). destruct (N.eq_dec i j); [left; subst; auto|right; congruence]. }
    + rewrite replace_hit by apply mark_ne. rewrite IH by auto. cbn [put flat_map]. rewrite N.eqb_refl. rewrite render_app. reflexivity.
    + rewrite replace_other, IH by auto. cbn [put flat_map].
      assert ((match k with Fragment => if i =? j then f else [Mark k i] | _ => [Mark k i] end) = [Mark k i]) as E.
      { destruct k; auto. destruct (N.eqb_spec i j); auto. congruence. }
      transitivity (render uid ([Mark k i] ++ put j f ps)); [rewrite render_app; unfold render at 2; cbn [flat_map]; rewrite app_nil_r; reflexivity|].
      rewrite <- E at 1. destruct k; reflexivity.
Qed.

(** ** A pass *)
Context (fs : fragments) (HD : NoDup (map fst fs)).
Notation SF := (stands_for fs).
Lemma sf_app d ps qs ps' qs' : SF d ps qs -> SF d ps' qs' -> SF d (ps ++ ps') (qs ++ qs').
Proof.
  intros H. induction H; intros H'; cbn [app]; [exact H'|constructor; auto|constructor; auto|]. rewrite <- app_assoc. econstructor; eauto.
Qed.
Lemma sf_up d ps qs : SF d ps qs -> SF (S d) ps qs.
Proof. intros H. induction H; try (constructor; auto); []. econstructor; eauto. Qed.
Lemma sf_le d e ps qs : (d <= e)%nat -> SF d ps qs -> SF e ps qs.
Proof. intros L. induction L; auto using sf_up. Qed.
Lemma unique i f g : In (i, f) fs -> In (i, g) fs -> f = g.
Proof.
  revert HD. induction fs as [|[j h] l IH]; intros D A B; [destruct A|]. cbn [map fst] in D. inversion D as [|? ? D1 D2]; subst.
  destruct A as [A|A], B as [B|B]; try congruence; try (apply IH; auto; fail).
  - inversion A; subst. destruct D1. change i with (fst (i, g)). apply in_map. auto.
  - inversion B; subst. destruct D1. change i with (fst (i, f)). apply in_map. auto.
Qed.
(** [ps] stands for [qs]; fragments nested to the full depth belong to [later]. *)
Inductive sf2 (later : fragments) : nat -> list piece -> list piece -> Prop :=
| sf2_nil d : sf2 later d [] []
| sf2_lit d t ps qs : sf2 later d ps qs -> sf2 later d (Lit t :: ps) (Lit t :: qs)
| sf2_other d k i ps qs : k <> Fragment -> sf2 later d ps qs -> sf2 later d (Mark k i :: ps) (Mark k i :: qs)
| sf2_now d i f gs ps qs : In (i, f) later -> In (i, f) fs -> SF d f gs -> sf2 later d ps qs -> sf2 later d (Mark Fragment i :: ps) (gs ++ qs)
| sf2_next d i f gs ps qs : In (i, f) fs -> SF d f gs -> sf2 later (S d) ps qs -> sf2 later (S d) (Mark Fragment i :: ps) (gs ++ qs).
Lemma sf2_app l d ps qs ps' qs' : sf2 l d ps qs -> sf2 l d ps' qs' -> sf2 l d (ps ++ ps') (qs ++ qs').
Proof.
  intros H. induction H; intros H'; cbn [app]; [exact H'|constructor; auto|constructor; auto| |].
  - rewrite <- app_assoc. eapply sf2_now; eauto.
  - rewrite <- app_assoc. eapply sf2_next; eauto.
Qed.
Lemma sf_sf2 l d ps qs : SF d ps qs -> sf2 l d ps qs.
Proof. intros H. induction H; try (constructor; auto; fail). eapply sf2_next; eauto. Qed.
Lemma sf2_put i f l d ps qs : In (i, f) fs -> sf2 ((i, f) :: l) d ps qs -> sf2 l d (put i f ps) qs.
Proof.
  intros Hi H. induction H; cbn [put flat_map app].
  - constructor.
  - constructor. apply IHsf2; auto.
  - assert ((match k with Fragment => if i0 =? i then f else [Mark k i0] | _ => [Mark k i0] end) = [Mark k i0]) as E by (destruct k; auto; congruence).
    destruct k; try congruence; cbn [app]; (constructor; [discriminate|apply IHsf2; auto]).
  - destruct (N.eqb_spec i0 i) as [->|D].
    + assert (f0 = f) as -> by (eapply unique; eauto). apply sf2_app; [apply sf_sf2; auto|apply IHsf2; auto].
    + destruct H as [H|H]; [inversion H; congruence|]. cbn [app]. eapply sf2_now; eauto.
  - destruct (N.eqb_spec i0 i) as [->|D].
    + assert (f0 = f) as -> by (eapply unique; eauto). apply sf2_app; [apply sf_sf2; apply sf_up; auto|apply IHsf2; auto].
    + cbn [app]. eapply sf2_next; eauto.
Qed.
Lemma sf2_sf d ps qs : sf2 [] d ps qs -> SF d ps qs.
Proof. intros H. induction H; try (constructor; auto; fail); [destruct H|]. econstructor; eauto. Qed.
Lemma sf_start d ps qs : SF (S d) ps qs -> sf2 fs d ps qs.
Proof.
  remember (S d) as e eqn:E. intros H. revert d E. induction H; intros d' E; subst; try (constructor; auto; fail).
  inversion E; subst. eapply sf2_now; eauto.
Qed.
(** Runs of literals of a text are runs of literals of what it stands for. *)
Lemma sf2_lits l d ps qs : sf2 l d ps qs -> forall a ls b, ps = a ++ map Lit ls ++ b -> exists a' b', qs = a' ++ map Lit ls ++ b'.
Proof.
  intros H. induction H; intros a ls b E.
  - destruct a; [|discriminate]. destruct ls; [|discriminate]. exists [], []. reflexivity.
  - destruct a as [|p a].
    + destruct ls as [|t' ls]; [exists [], (Lit t :: qs); reflexivity|]. cbn [app map] in E. inversion E; subst.
      clear E. assert (exists b', qs = map Lit ls ++ b') as (b' & ->).
      { clear IHsf2. remember (map Lit ls ++ b) as ps. revert ls Heqps. induction H; intros ls E.
        - destruct ls; [|discriminate]. exists []. reflexivity.
        - destruct ls as [|t2 ls]; [exists (Lit t :: qs); reflexivity|]. inversion E; subst. destruct (IHsf2 ls eq_refl) as (b' & ->). exists b'. reflexivity.
        - destruct ls as [|t2 ls]; [eexists; reflexivity|]. inversion E.
        - destruct ls as [|t2 ls]; [eexists; reflexivity|]. inversion E.
        - destruct ls as [|t2 ls]; [eexists; reflexivity|]. inversion E. }
      exists [], b'. reflexivity.
    + cbn [app] in E. inversion E; subst. destruct (IHsf2 a ls b eq_refl) as (a' & b' & ->). exists (Lit t :: a'), b'. reflexivity.
  - destruct a as [|p a].
    + destruct ls as [|t' ls]; [exists [], (Mark k i :: qs); reflexivity|]. inversion E.
    + cbn [app] in E. inversion E; subst. destruct (IHsf2 a ls b eq_refl) as (a' & b' & ->). exists (Mark k i :: a'), b'. reflexivity.
  - destruct a as [|p a].
    + destruct ls as [|t' ls]; [exists [], (gs ++ qs); reflexivity|]. inversion E.
    + cbn [app] in E. inversion E; subst. destruct (IHsf2 a ls b eq_refl) as (a' & b' & ->). exists (gs ++ a'), b'. rewrite <- app_assoc. reflexivity.
  - destruct a as [|p a].
    + destruct ls as [|t' ls]; [exists [], (gs ++ qs); reflexivity|]. inversion E.
    + cbn [app] in E. inversion E; subst. destruct (IHsf2 a ls b eq_refl) as (a' & b' & ->). exists (gs ++ a'), b'. rewrite <- app_assoc. reflexivity.
Qed.
Lemma sf2_clean l d ps qs : sf2 l d ps qs -> only_marks uid qs -> only_marks uid ps.
Proof.
  intros H C a ls b x y E. destruct (sf2_lits _ _ _ _ H _ _ _ E) as (a' & b' & E'). eapply C; eauto.
Qed.
Lemma pass l : forall d ps qs, (forall f, In f l -> In f fs) -> sf2 l d ps qs -> only_marks uid qs ->
  exists ps', retrieve_pass (store_of uid l) (render uid ps) = render uid ps' /\ SF d ps' qs.
Proof.
  induction l as [|[i f] l IH]; intros d ps qs Hl H C.
  - exists ps. split; [reflexivity|]. apply sf2_sf. auto.
  - unfold retrieve_pass in *. cbn [store_of map fold_left fst snd]. rewrite replace_put by (eapply sf2_clean; eauto).
    apply IH; auto; [intros; apply Hl; right; auto|]. apply sf2_put; auto. apply Hl. left; auto.
Qed.
Lemma pass_all d ps qs : SF (S d) ps qs -> only_marks uid qs ->
  exists ps', retrieve_pass (store_of uid fs) (render uid ps) = render uid ps' /\ SF d ps' qs.
Proof. intros H C. apply pass; auto. apply sf_start; auto. Qed.
Lemma sf_zero ps qs : SF 0 ps qs -> ps = qs.
Proof. remember O as d. intros H. induction H; try discriminate; f_equal; auto. Qed.
Lemma sf_no_mark d ps qs : SF d ps qs -> forall i, ~ In (Mark Fragment i) qs.
Proof.
  intros H. induction H; intros j F; auto.
  - destruct F as [F|F]; [discriminate|]. eapply IHstands_for; eauto.
  - destruct F as [F|F]; [inversion F; congruence|]. eapply IHstands_for; eauto.
  - apply in_app_or in F. destruct F as [F|F]; [eapply IHstands_for1; eauto|eapply IHstands_for2; eauto].
Qed.
Lemma sf_refl qs : (forall i, ~ In (Mark Fragment i) qs) -> SF 0 qs qs.
Proof.
  induction qs as [|[t|k i] qs IH]; intros H; constructor.
  - apply IH. intros i F. apply (H i). right. auto.
  - intros ->. apply (H i). left. auto.
  - apply IH. intros i' F. apply (H i'). right. auto.
Qed.
Lemma pass_done qs : (forall i, ~ In (Mark Fragment i) qs) -> only_marks uid qs -> retrieve_pass (store_of uid fs) (render uid qs) = render uid qs.
Proof.
  intros H C. destruct (pass_all 0 qs qs) as (ps' & E & S); auto; [apply sf_up; apply sf_refl; auto|]. rewrite E. apply sf_zero in S. subst. reflexivity.
Qed.
Lemma iter_done d : forall ps qs, SF d ps qs -> only_marks uid qs -> retrieve_pass (store_of uid fs) (render uid ps) = render uid ps -> render uid ps = render uid qs.
Proof.
  induction d as [|d IH]; intros ps qs H C E; [apply sf_zero in H; subst; reflexivity|].
  destruct (pass_all d ps qs H C) as (ps' & E' & H'). rewrite E' in E. rewrite <- E. apply IH; auto. rewrite E. congruence.
Qed.
Lemma loop_ends d : forall n ps qs s, (d < n)%nat -> SF d ps qs -> only_marks uid qs -> retrieve_loop n (store_of uid fs) (render uid ps) s = Ret (render uid qs) s.
Proof.
  induction d as [|d IH]; intros n ps qs s L H C; (destruct n as [|n]; [lia|]); cbn [retrieve_loop].
  - pose proof (sf_no_mark _ _ _ H) as Hn. apply sf_zero in H. subst. rewrite pass_done, seqb_refl by auto. reflexivity.
  - destruct (pass_all d ps qs H C) as (ps' & E & H'). rewrite E. destruct (seqb (render uid ps') (render uid ps)) eqn:Q.
    + apply seqb_eq in Q. unfold ret. f_equal. rewrite Q. eapply iter_done; eauto. rewrite E. exact Q.
    + apply IH; auto. lia.
Qed.
End Prefix.

(** ** Ordered stores *)
Lemma sf_more fs gs d ps qs : (forall f, In f fs -> In f gs) -> stands_for fs d ps qs -> stands_for gs d ps qs.
Proof. intros H S. induction S; try (constructor; auto; fail). econstructor; eauto. Qed.
Lemma sf_known fs d ps : known fs ps -> (forall i, In i (map fst fs) -> exists f gs, In (i, f) fs /\ stands_for fs d f gs) -> exists qs, stands_for fs (S d) ps qs.
Proof.
  intros K H. induction ps as [|[t|k i] ps IH]; [eexists; constructor| |].
  - destruct IH as (qs & Q); [intros i F; apply K; right; auto|]. eexists. constructor. eauto.
  - destruct IH as (qs & Q); [intros j F; apply K; right; auto|]. destruct k; try (eexists; constructor; [discriminate|eauto]; fail).
    destruct (H i) as (f & gs & A & B); [apply K; left; auto|]. exists (gs ++ qs). econstructor; eauto.
Qed.
Lemma NoDup_app_add {A} (l : list A) x : NoDup l -> ~ In x l -> NoDup (l ++ [x]).
Proof.
  induction l as [|y l IH]; intros D H; [repeat constructor; auto|]. inversion D; subst. cbn [app]. constructor.
  - intros F. apply in_app_or in F. destruct F as [F|[->|[]]]; auto. apply H. left. auto.
  - apply IH; auto. intros F. apply H. right. auto.
Qed.
Lemma ordered_depth rest : forall before, earlier before rest -> NoDup (map fst before) ->
  (forall i, In i (map fst before) -> exists f gs, In (i, f) before /\ stands_for before (List.length before) f gs) ->
  NoDup (map fst (before ++ rest)) /\
  (forall i, In i (map fst (before ++ rest)) -> exists f gs, In (i, f) (before ++ rest) /\ stands_for (before ++ rest) (List.length (before ++ rest)) f gs).
Proof.
  induction rest as [|[i f] rest IH]; intros before E D H; [rewrite app_nil_r; auto|]. cbn [earlier] in E. destruct E as (E1 & E2 & E3).
  replace (before ++ (i, f) :: rest) with ((before ++ [(i, f)]) ++ rest) by (rewrite <- app_assoc; reflexivity).
  apply IH; auto.
  - rewrite map_app. cbn [map fst]. apply NoDup_app_add; auto.
  - intros j Hj. rewrite map_app in Hj. apply in_app_or in Hj. rewrite app_length, Nat.add_1_r. destruct Hj as [Hj|[Hj|[]]].
    + destruct (H j Hj) as (g & gs & A & B). exists g, gs. split; [apply in_or_app; auto|]. apply sf_up. eapply sf_more; [|exact B]. intros; apply in_or_app; auto.
    + subst j. destruct (sf_known before (List.length before) f E2 H) as (qs & Q). exists f, qs. split; [apply in_or_app; right; left; auto|].
      eapply sf_more; [|exact Q]. intros; apply in_or_app; auto.
Qed.
Lemma ordered_stands fs ps : earlier [] fs -> known fs ps -> NoDup (map fst fs) /\ exists qs, stands_for fs (S (List.length fs)) ps qs.
Proof.
  intros E K. destruct (ordered_depth fs [] E) as [A B]; [constructor|intros i []|]. split; auto. apply sf_known; auto.
Qed.

(** ** The removal of the prefix from a document *)
Lemma first_occurrence uid : uid <> [] -> forall s, contains uid s = true ->
  exists a b, s = a ++ uid ++ b /\ contains uid a = false /\ (forall x c y, a = x ++ c :: y -> starts_with uid (c :: y ++ uid ++ b) = false).
Proof.
  intros Hu. induction s as [|c s IH]; intros H.
  - cbn [contains] in H. destruct uid; [congruence|discriminate].
  - cbn [contains] in H. destruct (starts_with uid (c :: s)) eqn:E.
    + apply starts_with_iff in E. destruct E as (r & ->). exists [], r. split; [reflexivity|]. split; [destruct uid; [congruence|reflexivity]|]. intros x ? ? F. destruct x; discriminate.
    + cbn [orb] in H. destruct (IH H) as (a & b & -> & C & D). exists (c :: a), b. split; [reflexivity|]. split.
      * cbn [contains]. rewrite C, orb_false_r. destruct (starts_with uid (c :: a)) eqn:F; auto. apply starts_with_iff in F. destruct F as (r & F).
        change (c :: a ++ uid ++ b) with ((c :: a) ++ uid ++ b) in E. rewrite F, <- app_assoc, starts_self in E. discriminate.
      * intros x d y F. destruct x as [|x0 x]; inversion F; subst; [exact E|]. eapply D. reflexivity.
Qed.
Lemma removed_apart uid : uid <> [] -> forall n b, (List.length b <= n)%nat ->
  (forall x y, b = x ++ uid ++ y -> exists x' c, x = x' ++ [c] /\ ~ In c uid) -> contains uid (replace_str b uid []) = false.
Proof.
  intros Hu. induction n as [|n IH]; intros b L H.
  - destruct b; [|cbn in L; lia]. destruct uid; [congruence|reflexivity].
  - destruct (contains uid b) eqn:C; [|rewrite replace_absent; auto]. destruct (first_occurrence uid Hu b C) as (x & y & -> & Cx & F).
    rewrite replace_skip by auto. rewrite replace_hit by auto. cbn [app]. destruct (H x y eq_refl) as (x' & c & -> & Hc).
    rewrite <- app_assoc. cbn [app]. rewrite contains_cut by auto. apply orb_false_iff. split.
    + rewrite contains_cut in Cx by auto. apply orb_false_iff in Cx. tauto.
    + apply IH.
      * rewrite !app_length in L. destruct uid; [congruence|]. cbn [List.length] in *. lia.
      * intros p q E. destruct (H (((x' ++ [c]) ++ uid) ++ p) q) as (z & d & Ez & Hd); [rewrite E, <- !app_assoc; reflexivity|].
        destruct p as [|p0 p] using rev_ind; [|clear IHp; rewrite app_assoc in Ez; apply app_inj_tail in Ez; destruct Ez as [_ <-]; eauto].
        rewrite app_nil_r in Ez. exfalso. destruct uid as [|u0 uid] using rev_ind; [congruence|]. rewrite app_assoc in Ez. apply app_inj_tail in Ez. destruct Ez as [_ <-].
        apply Hd. apply in_or_app. right. left. auto.
Qed.
Lemma removed uid s : uid <> [] -> set_apart uid s -> contains uid (replace_str s uid []) = false.
Proof.
  intros Hu H. destruct (contains uid s) eqn:C; [|rewrite replace_absent; auto]. destruct (first_occurrence uid Hu s C) as (x & y & -> & Cx & F).
  rewrite replace_skip by auto. rewrite replace_hit by auto. cbn [app].
  assert (contains uid (replace_str y uid []) = false) as Y.
  { apply (removed_apart uid Hu (List.length y)); auto. intros p q E. destruct (H ((x ++ uid) ++ p) q) as [N|(z & d & Ez & Hd)]; [rewrite E, <- !app_assoc; reflexivity| |].
    - destruct x; [|discriminate]. destruct uid; [congruence|discriminate].
    - destruct p as [|p0 p] using rev_ind; [|clear IHp; rewrite app_assoc in Ez; apply app_inj_tail in Ez; destruct Ez as [_ <-]; eauto].
      rewrite app_nil_r in Ez. exfalso. destruct uid as [|u0 uid] using rev_ind; [congruence|]. rewrite app_assoc in Ez. apply app_inj_tail in Ez. destruct Ez as [_ <-].
      apply Hd. apply in_or_app. right. left. auto. }
  destruct (H x y eq_refl) as [->|(x' & c & -> & Hc)]; [exact Y|]. rewrite <- app_assoc. cbn [app]. rewrite contains_cut by auto. apply orb_false_iff. split; auto.
  rewrite contains_cut in Cx by auto. apply orb_false_iff in Cx. tauto.
Qed.
