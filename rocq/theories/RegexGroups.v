(** What the groups of a pattern can capture. *)
From Verif Require Import Str Unicode Regex RegexTheory.

(** The bodies of the groups number [n] that can set the group. *)
Fixpoint groups_of (n : nat) (r : re) : list re :=
  match r with
  | RSeq a b | RAlt a b => groups_of n a ++ groups_of n b
  | RStar _ a => groups_of n a
  | RGroup k a => (if Nat.eqb k n then [a] else []) ++ groups_of n a
  | _ => []
  end.

Lemma group_mat r s s' : Mat r s s' -> forall n v, find_cap n (m_caps s') = Some v ->
  find_cap n (m_caps s) = Some v \/
  exists a s1 s2, In a (groups_of n r) /\ Mat a s1 s2 /\ v = (m_after s1, m_after s2).
Proof.
  induction 1 as [s|k s x rest Ha Hk|a b s s1 s2 H1 IH1 H2 IH2|a b s s1 H1 IH1|a b s s1 H1 IH1
                 |g a s|g a s s1 s2 H1 IH1 H2 IH2|n a s s1 H1 IH1|n s v s1 Hf He|a s s1 H1 IH1
                 |a s Hm|k s x rest Hb Hk|a s Has]; intros n0 v0 Hv; cbn [groups_of]; auto.
  - destruct (IH2 n0 v0 Hv) as [H|(a0 & t1 & t2 & G1 & G2 & G3)].
    + destruct (IH1 n0 v0 H) as [H'|(a0 & t1 & t2 & G1 & G2 & G3)]; auto.
      right. exists a0, t1, t2. rewrite in_app_iff. auto.
    + right. exists a0, t1, t2. rewrite in_app_iff. auto.
  - destruct (IH1 n0 v0 Hv) as [H|(a0 & t1 & t2 & G1 & G2 & G3)]; auto.
    right. exists a0, t1, t2. rewrite in_app_iff. auto.
  - destruct (IH1 n0 v0 Hv) as [H|(a0 & t1 & t2 & G1 & G2 & G3)]; auto.
    right. exists a0, t1, t2. rewrite in_app_iff. auto.
  - destruct (IH2 n0 v0 Hv) as [H|(a0 & t1 & t2 & G1 & G2 & G3)].
    + exact (IH1 n0 v0 H).
    + right. exists a0, t1, t2. auto.
  - cbn [m_caps find_cap] in Hv. destruct (Nat.eqb n n0) eqn:E.
    + inversion Hv; subst. right. exists a, s, s1. split; [left; reflexivity|auto].
    + destruct (IH1 n0 v0 Hv) as [H|(a0 & t1 & t2 & G1 & G2 & G3)]; auto.
      right. exists a0, t1, t2. split; [exact G1|auto].
  - apply eat_lit_moved in He as [_ He]. rewrite He in Hv. auto.
Qed.

(** The classes of the characters a pattern consumes. *)
Definition any_cls : cls := mk_cls true [].
Fixpoint consumes (r : re) : list cls :=
  match r with
  | RCls k => [k]
  | RSeq a b | RAlt a b => consumes a ++ consumes b
  | RStar _ a | RGroup _ a => consumes a
  | RBackref _ => [any_cls]
  | _ => []
  end.
Definition in_any (l : list cls) (c : N) : bool := existsb (fun k => in_cls k c) l.

Lemma in_any_app a b c : in_any (a ++ b) c = in_any a c || in_any b c.
Proof. apply existsb_app. Qed.

Lemma Mat_consumes r s s' : Mat r s s' ->
  exists w, moved s w s' /\ forallb (in_any (consumes r)) w = true.
Proof.
  assert (mono : forall l l' w, forallb (in_any l) w = true -> (forall c, in_any l c = true -> in_any l' c = true) ->
                 forallb (in_any l') w = true).
  { intros l l' w H1 H2. rewrite forallb_forall in *. auto. }
  induction 1 as [s|k s x rest Ha Hk|a b s s1 s2 H1 IH1 H2 IH2|a b s s1 H1 IH1|a b s s1 H1 IH1
                 |g a s|g a s s1 s2 H1 IH1 H2 IH2|n a s s1 H1 IH1|n s v s1 Hf He|a s s1 H1 IH1
                 |a s Hm|k s x rest Hb Hk|a s Has]; cbn [consumes];
    try (exists []; split; [apply moved_refl|reflexivity]).
  - exists [x]. split; [apply moved_step; auto|]. cbn. rewrite Hk. reflexivity.
  - destruct IH1 as (w1 & M1 & C1), IH2 as (w2 & M2 & C2). exists (w1 ++ w2).
    split; [eapply moved_trans; eauto|]. rewrite forallb_app. apply andb_true_iff.
    split; (eapply mono; [eassumption|]); intros c Hc; rewrite in_any_app, Hc; auto using orb_true_r.
  - destruct IH1 as (w1 & M1 & C1). exists w1. split; auto. eapply mono; [eassumption|].
    intros c Hc; rewrite in_any_app, Hc; auto.
  - destruct IH1 as (w1 & M1 & C1). exists w1. split; auto. eapply mono; [eassumption|].
    intros c Hc; rewrite in_any_app, Hc; auto using orb_true_r.
  - destruct IH1 as (w1 & M1 & C1), IH2 as (w2 & M2 & C2). exists (w1 ++ w2).
    split; [eapply moved_trans; eauto|]. rewrite forallb_app. cbn [consumes] in C2. rewrite C1, C2. reflexivity.
  - destruct IH1 as (w1 & [M1 M2] & C1). exists w1. split; [split; auto|auto].
  - apply eat_lit_moved in He as [He _]. exists (cap_str v). split; auto.
    apply forallb_forall. intros; reflexivity.
Qed.

(** The text of a group consists of characters its bodies consume. *)
Lemma cap_consumes r before after s n t :
  match_at r before after = Some s -> cap_text n (m_caps s) = Some t ->
  forallb (in_any (flat_map consumes (groups_of n r))) t = true.
Proof.
  intros H Ht. apply match_at_sound in H. unfold cap_text in Ht.
  destruct (find_cap n (m_caps s)) as [v|] eqn:E; [|discriminate]. cbn in Ht. inversion Ht; subst t.
  destruct (group_mat _ _ _ H n v E) as [H0|(a & s1 & s2 & H1 & H2 & ->)]; [discriminate|].
  destruct (Mat_consumes _ _ _ H2) as (w & [M1 M2] & C). rewrite M1, cap_str_app.
  apply forallb_forall. rewrite forallb_forall in C. intros c Hc. specialize (C c Hc).
  unfold in_any in *. apply existsb_exists in C as (k & Hk & Hkc). apply existsb_exists. exists k.
  split; auto. apply in_flat_map. exists a; auto.
Qed.

(** Groups set by every match. *)
Fixpoint always (n : nat) (r : re) : bool :=
  match r with
  | RSeq a b => always n a || always n b
  | RAlt a b => always n a && always n b
  | RGroup k a => Nat.eqb k n || always n a
  | _ => false
  end.

Lemma Mat_keeps r s s' : Mat r s s' -> forall n, find_cap n (m_caps s) <> None -> find_cap n (m_caps s') <> None.
Proof.
  induction 1; intros n0 Hn; auto.
  - cbn [m_caps find_cap]. destruct (Nat.eqb n n0); [discriminate|auto].
  - apply eat_lit_moved in H0 as [_ H0]. rewrite H0. auto.
Qed.

Lemma always_ok n r s s' : Mat r s s' -> always n r = true -> find_cap n (m_caps s') <> None.
Proof.
  induction 1; cbn [always]; intros Ha; try discriminate.
  - apply orb_true_iff in Ha as [Ha|Ha]; [|auto]. eapply Mat_keeps; eauto.
  - apply andb_true_iff in Ha as [Ha _]; auto.
  - apply andb_true_iff in Ha as [_ Ha]; auto.
  - cbn [m_caps find_cap]. destruct (Nat.eqb n0 n) eqn:E; [discriminate|]. cbn in Ha. auto.
Qed.

Lemma match_always n r before after s : always n r = true -> match_at r before after = Some s ->
  exists t, cap_text n (m_caps s) = Some t.
Proof.
  intros Ha H. apply match_at_sound in H. pose proof (always_ok n _ _ _ H Ha) as Hn.
  unfold cap_text. destruct (find_cap n (m_caps s)) as [v|]; [|congruence]. eexists; reflexivity.
Qed.

(** A hit of a pattern. *)
Definition hit_of (r : re) (h : hit) : Prop :=
  exists before after s, match_at r before after = Some s /\ h = mk_hit_of after s.

Lemma segs_hits r text h : In (Hit h) (segs r text) -> hit_of r h.
Proof. intros H. apply segs_hit in H as (w & v & s & _ & H1 & H2). exists (rev w), v, s; auto. Qed.
Lemma captures_hit r text h : captures r text = Some h -> hit_of r h.
Proof. intros H. apply captures_some in H as (w & v & s & _ & H1 & H2). exists (rev w), v, s; auto. Qed.
Lemma hit_consumes r h n t : hit_of r h -> cap_text n (h_caps h) = Some t ->
  forallb (in_any (flat_map consumes (groups_of n r))) t = true.
Proof. intros (b & a & s & H & ->) Ht. eapply cap_consumes; eauto. Qed.
Lemma hit_always r h n : hit_of r h -> always n r = true -> exists t, cap_text n (h_caps h) = Some t.
Proof. intros (b & a & s & H & ->) Ha. eapply match_always; eauto. Qed.

(** ** The words of a pattern, without regard to the surrounding text *)
Inductive word : re -> str -> Prop :=
| WEps : word REps []
| WCls k x : in_cls k x = true -> word (RCls k) [x]
| WSeq a b v w : word a v -> word b w -> word (RSeq a b) (v ++ w)
| WAltL a b w : word a w -> word (RAlt a b) w
| WAltR a b w : word b w -> word (RAlt a b) w
| WStar0 g a : word (RStar g a) []
| WStarS g a v w : word a v -> word (RStar g a) w -> word (RStar g a) (v ++ w)
| WGroup n a w : word a w -> word (RGroup n a) w
| WBackref n w : word (RBackref n) w
| WLook a : word (RLook a) []
| WNLook a : word (RNLook a) []
| WBack k : word (RBack k) []
| WAssert a : word (RAssert a) [].

Lemma Mat_word r s s' : Mat r s s' -> exists w, moved s w s' /\ word r w.
Proof.
  induction 1 as [s|k s x rest Ha Hk|a b s s1 s2 H1 IH1 H2 IH2|a b s s1 H1 IH1|a b s s1 H1 IH1
                 |g a s|g a s s1 s2 H1 IH1 H2 IH2|n a s s1 H1 IH1|n s v s1 Hf He|a s s1 H1 IH1
                 |a s Hm|k s x rest Hb Hk|a s Has];
    try (exists []; split; [apply moved_refl|constructor]).
  - exists [x]. split; [apply moved_step; auto|constructor; auto].
  - destruct IH1 as (w1 & M1 & C1), IH2 as (w2 & M2 & C2). exists (w1 ++ w2).
    split; [eapply moved_trans; eauto|constructor; auto].
  - destruct IH1 as (w1 & M1 & C1). exists w1. split; [auto|apply WAltL; auto].
  - destruct IH1 as (w1 & M1 & C1). exists w1. split; [auto|apply WAltR; auto].
  - destruct IH1 as (w1 & M1 & C1), IH2 as (w2 & M2 & C2). exists (w1 ++ w2).
    split; [eapply moved_trans; eauto|econstructor; eauto].
  - destruct IH1 as (w1 & [M1 M2] & C1). exists w1. split; [split; auto|constructor; auto].
  - apply eat_lit_moved in He as [He _]. exists (cap_str v). split; [auto|constructor].
Qed.

Lemma moved_fun s w w' s' : moved s w s' -> moved s w' s' -> w = w'.
Proof. intros [H1 _] [H2 _]. rewrite H1 in H2. apply app_inv_tail in H2. auto. Qed.

Lemma hit_word r h : hit_of r h -> word r (h_text h).
Proof.
  intros (b & a & s & H & ->). apply match_at_sound in H. apply Mat_word in H as (w & [M1 M2] & Hw).
  cbn [m_after m_before] in *. unfold mk_hit_of. cbn [h_text]. rewrite M1, cap_str_app. exact Hw.
Qed.

Lemma hit_group r h n t : hit_of r h -> cap_text n (h_caps h) = Some t ->
  exists a, In a (groups_of n r) /\ word a t.
Proof.
  intros (b & a & s & H & ->) Ht. apply match_at_sound in H. unfold mk_hit_of, cap_text in Ht. cbn [h_caps] in Ht.
  destruct (find_cap n (m_caps s)) as [v|] eqn:E; [|discriminate]. cbn in Ht. inversion Ht; subst t.
  destruct (group_mat _ _ _ H n v E) as [H0|(a0 & s1 & s2 & H1 & H2 & ->)]; [discriminate|].
  apply Mat_word in H2 as (w & [M1 M2] & Hw). rewrite M1, cap_str_app. eauto.
Qed.

(** A pattern [^b$] matches only whole texts. *)
Lemma anchored_word b text : is_match (RSeq (RAssert SOT) (RSeq b (RAssert EOT))) text = true -> word b text.
Proof.
  unfold is_match. destruct (captures _ text) as [h|] eqn:E; [|discriminate]. intros _.
  apply captures_some in E as (w & v & s & H1 & H2 & H3). apply match_at_sound in H2.
  inversion H2 as [| |a0 b0 s0 s1 s2 Ha Hb| | | | | | | | | |]; subst.
  inversion Ha as [| | | | | | | | | | | |a1 s3 Hs E1 E2]; subst. cbn in Hs.
  destruct (rev w) eqn:Er; [|discriminate]. apply (f_equal (@rev N)) in Er. rewrite rev_involutive in Er. cbn in Er.
  subst w. inversion Hb as [| |a0 b0 s0 s3 s4 Hc Hd| | | | | | | | | |]; subst.
  inversion Hd as [| | | | | | | | | | | |a1 s4 Hs' E1 E2]; subst. cbn in Hs'.
  apply Mat_word in Hc as (w & [M1 M2] & Hw). cbn [m_after] in M1. cbn [app].
  destruct (m_after s) eqn:Es; [|discriminate]. rewrite app_nil_r in M1. subst v. exact Hw.
Qed.

Lemma word_star_cls g k w : word (RStar g (RCls k)) w <-> forallb (in_cls k) w = true.
Proof.
  split.
  - remember (RStar g (RCls k)) as r eqn:Er. induction 1; inversion Er; subst; auto.
    inversion H; subst. cbn. rewrite IHword2 by reflexivity.
    match goal with Hk : in_cls _ _ = true |- _ => rewrite Hk; reflexivity end.
  - induction w as [|x w IH]; cbn; [constructor|]. rewrite andb_true_iff. intros [H1 H2].
    change (x :: w) with ([x] ++ w). constructor; [constructor; auto|auto].
Qed.
Lemma word_plus_cls g k w : word (RSeq (RCls k) (RStar g (RCls k))) w <-> w <> [] /\ forallb (in_cls k) w = true.
Proof.
  split.
  - intros H; inversion H as [| |a b v w' Ha Hb| | | | | | | | | |]; subst. apply word_star_cls in Hb.
    inversion Ha as [|k0 x Hk| | | | | | | | | | |]; subst. cbn. split; [discriminate|]. rewrite Hk, Hb; auto.
  - intros [H1 H2]. destruct w as [|x w]; [congruence|]. cbn in H2. apply andb_true_iff in H2 as [H2 H3].
    change (x :: w) with ([x] ++ w). constructor; [constructor; auto|apply word_star_cls; auto].
Qed.

(** The first position. *)
Lemma is_match_first r text s : match_at r [] text = Some s -> is_match r text = true.
Proof.
  intros H. unfold is_match, captures, find_first. destruct text; cbn [find_from]; rewrite H; reflexivity.
Qed.
Lemma captures_first r text s : match_at r [] text = Some s -> captures r text = Some (mk_hit_of text s).
Proof.
  intros H. unfold captures, find_first. destruct text; cbn [find_from]; rewrite H; reflexivity.
Qed.
