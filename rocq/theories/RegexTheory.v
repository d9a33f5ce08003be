(** Theory of the matcher: a relational semantics, soundness and completeness,
    iteration over matches. *)
From Verif Require Import Str Unicode Regex.

(** ** Relational semantics *)
Inductive Mat : re -> mst -> mst -> Prop :=
| MEps s : Mat REps s s
| MCls k s x rest : m_after s = x :: rest -> in_cls k x = true -> Mat (RCls k) s (step s x rest)
| MSeq a b s s1 s2 : Mat a s s1 -> Mat b s1 s2 -> Mat (RSeq a b) s s2
| MAltL a b s s1 : Mat a s s1 -> Mat (RAlt a b) s s1
| MAltR a b s s1 : Mat b s s1 -> Mat (RAlt a b) s s1
| MStar0 g a s : Mat (RStar g a) s s
| MStarS g a s s1 s2 : Mat a s s1 -> Mat (RStar g a) s1 s2 -> Mat (RStar g a) s s2
| MGroup n a s s1 : Mat a s s1 ->
    Mat (RGroup n a) s (mk_mst (m_before s1) (m_after s1) ((n, (m_after s, m_after s1)) :: m_caps s1))
| MBackref n s v s1 : find_cap n (m_caps s) = Some v -> eat_lit (cap_str v) s = Some s1 ->
    Mat (RBackref n) s s1
| MLook a s s1 : Mat a s s1 -> Mat (RLook a) s s
| MNLook a s : m a s Some = None -> Mat (RNLook a) s s
| MBack k s x rest : m_before s = x :: rest -> in_cls k x = true -> Mat (RBack k) s s
| MAssert a s : assert_holds a (m_before s) (m_after s) = true -> Mat (RAssert a) s s.

Definition star_loop (greedy : bool) (a : re) (k : mst -> option mst) :=
  fix loop (fuel : str) (s : mst) {struct fuel} : option mst :=
    match fuel with
    | [] => k s
    | _ :: fuel' =>
        if greedy then
          match m a s (loop fuel') with
          | Some x => Some x
          | None => k s
          end
        else
          match k s with
          | Some x => Some x
          | None => m a s (loop fuel')
          end
    end.

Lemma m_star g a s k : m (RStar g a) s k = star_loop g a k (m_after s) s.
Proof. reflexivity. Qed.

Lemma star_loop_cons g a k c f s :
  star_loop g a k (c :: f) s =
  if g then match m a s (star_loop g a k f) with Some x => Some x | None => k s end
  else match k s with Some x => Some x | None => m a s (star_loop g a k f) end.
Proof. reflexivity. Qed.

Lemma m_sound r : forall s k x, m r s k = Some x -> exists s', Mat r s s' /\ k s' = Some x.
Proof.
  induction r as [ |c|a IHa b IHb|a IHa b IHb|g a IHa|n a IHa|n|a IHa|a IHa|c|a]; intros s k x H;
    cbn [m] in H.
  - exists s; split; [constructor|exact H].
  - destruct (m_after s) as [|y rest] eqn:E; [discriminate|].
    destruct (in_cls c y) eqn:E2; [|discriminate].
    eexists; split; [|exact H]. econstructor; eauto.
  - apply IHa in H as (s1 & H1 & H2). apply IHb in H2 as (s2 & H3 & H4).
    eexists; split; [|exact H4]. econstructor; eauto.
  - destruct (m a s k) as [y|] eqn:E.
    + inversion H; subst. apply IHa in E as (s1 & H1 & H2). exists s1; split; [apply MAltL|]; auto.
    + apply IHb in H as (s1 & H1 & H2). exists s1; split; [apply MAltR|]; auto.
  - change (star_loop g a k (m_after s) s = Some x) in H.
    assert (G : forall f s x, star_loop g a k f s = Some x -> exists s', Mat (RStar g a) s s' /\ k s' = Some x).
    { clear H s x. induction f as [|c f IHf]; intros s x H.
      - exists s; split; [constructor|exact H].
      - rewrite star_loop_cons in H. destruct g.
        + destruct (m a s (star_loop true a k f)) as [y|] eqn:E.
          * inversion H; subst. apply IHa in E as (s1 & H1 & H2). apply IHf in H2 as (s2 & H3 & H4).
            exists s2; split; [econstructor|]; eauto.
          * exists s; split; [constructor|exact H].
        + destruct (k s) as [y|] eqn:E.
          * inversion H; subst. exists s; split; [constructor|exact E].
          * apply IHa in H as (s1 & H1 & H2). apply IHf in H2 as (s2 & H3 & H4).
            exists s2; split; [econstructor|]; eauto. }
    eapply G; eauto.
  - apply IHa in H as (s1 & H1 & H2). eexists; split; [|exact H2]. constructor; auto.
  - destruct (find_cap n (m_caps s)) as [v|] eqn:E; [|discriminate].
    destruct (eat_lit (cap_str v) s) as [s1|] eqn:E2; [|discriminate].
    exists s1; split; [econstructor|]; eauto.
  - destruct (m a s Some) as [y|] eqn:E; [|discriminate].
    apply IHa in E as (s1 & H1 & H2). exists s; split; [econstructor|]; eauto.
  - destruct (m a s Some) as [y|] eqn:E; [discriminate|].
    exists s; split; [constructor|]; auto.
  - destruct (m_before s) as [|y rest] eqn:E; [discriminate|].
    destruct (in_cls c y) eqn:E2; [|discriminate].
    exists s; split; [econstructor|]; eauto.
  - destruct (assert_holds a (m_before s) (m_after s)) eqn:E; [|discriminate].
    exists s; split; [constructor|]; auto.
Qed.

(** ** Positions *)
(** [s'] is [s] moved forward over [w]. *)
Definition moved (s : mst) (w : str) (s' : mst) : Prop :=
  m_after s = w ++ m_after s' /\ m_before s' = rev w ++ m_before s.

Lemma moved_refl s : moved s [] s.
Proof. split; reflexivity. Qed.

Lemma moved_trans s w s1 v s2 : moved s w s1 -> moved s1 v s2 -> moved s (w ++ v) s2.
Proof.
  intros [H1 H2] [H3 H4]; split.
  - rewrite H1, H3, app_assoc; reflexivity.
  - rewrite H4, H2, rev_app_distr, app_assoc; reflexivity.
Qed.

Lemma moved_step s x rest : m_after s = x :: rest -> moved s [x] (step s x rest).
Proof. intros H; split; simpl; auto. Qed.

Lemma eat_lit_moved p : forall s s', eat_lit p s = Some s' -> moved s p s' /\ m_caps s' = m_caps s.
Proof.
  induction p as [|x p IH]; intros s s' H; simpl in H.
  - inversion H; subst; split; [apply moved_refl|reflexivity].
  - destruct (m_after s) as [|y rest] eqn:E; [discriminate|].
    destruct (x =? y) eqn:E2; [|discriminate]. apply N.eqb_eq in E2; subst y.
    apply IH in H as [H1 H2]. split; [|exact H2].
    apply (moved_trans s [x] (step s x rest) p); auto. apply moved_step; auto.
Qed.

Lemma Mat_moved r s s' : Mat r s s' -> exists w, moved s w s'.
Proof.
  induction 1; try (exists []; apply moved_refl).
  - eexists; apply moved_step; eauto.
  - destruct IHMat1 as [w1 H1], IHMat2 as [w2 H2]. eexists; eapply moved_trans; eauto.
  - auto.
  - auto.
  - destruct IHMat1 as [w1 H1], IHMat2 as [w2 H2]. eexists; eapply moved_trans; eauto.
  - destruct IHMat as [w Hw]. exists w. destruct Hw; split; auto.
  - apply eat_lit_moved in H0 as [H0 _]. eauto.
Qed.

Lemma nullable_false_moved r s s' : Mat r s s' -> nullable r = false ->
  exists c w, moved s (c :: w) s'.
Proof.
  induction 1; simpl; intros Hn; try discriminate.
  - exists x, []; apply moved_step; auto.
  - destruct (nullable a) eqn:Ea.
    + simpl in Hn. destruct (IHMat2 Hn) as (c & w & Hw).
      destruct (Mat_moved _ _ _ H) as [v Hv]. pose proof (moved_trans _ _ _ _ _ Hv Hw) as Hm.
      destruct v; simpl in Hm; eauto.
    + destruct (IHMat1 eq_refl) as (c & w & Hw).
      destruct (Mat_moved _ _ _ H0) as [v Hv]. exists c, (w ++ v). apply (moved_trans _ _ _ _ _ Hw Hv).
  - apply orb_false_iff in Hn as [H1 H2]; auto.
  - apply orb_false_iff in Hn as [H1 H2]; auto.
  - destruct (IHMat Hn) as (c & w & Hw). exists c, w. destruct Hw; split; auto.
Qed.

Lemma m_complete r : wf_re r = true -> forall s s' k, Mat r s s' -> k s' <> None -> m r s k <> None.
Proof.
  induction r as [ |c|a IHa b IHb|a IHa b IHb|g a IHa|n a IHa|n|a IHa|a IHa|c|a];
    intros Hwf s s' k H Hk; cbn [m]; simpl in Hwf.
  - inversion H; subst; auto.
  - inversion H; subst. match goal with h : m_after _ = _ |- _ => rewrite h end.
    match goal with h : in_cls _ _ = _ |- _ => rewrite h end. auto.
  - apply andb_true_iff in Hwf as [Hwa Hwb]. inversion H; subst. eapply IHa; eauto; eapply IHb; eauto.
  - apply andb_true_iff in Hwf as [Hwa Hwb].
    destruct (m a s k) eqn:E; [discriminate|].
    inversion H; subst.
    + exfalso. eapply IHa; eauto.
    + eapply IHb; eauto.
  - apply andb_true_iff in Hwf as [Hwa Hn]. apply negb_true_iff in Hn.
    change (star_loop g a k (m_after s) s <> None).
    assert (G : forall f s s', Mat (RStar g a) s s' -> k s' <> None ->
                (List.length (m_after s) <= List.length f)%nat -> star_loop g a k f s <> None).
    { clear H Hk s s'. induction f as [|c f IHf]; intros s s' H Hk Hlen.
      - simpl. inversion H; subst; auto.
        match goal with h : Mat a _ _ |- _ => destruct (nullable_false_moved _ _ _ h Hn) as (c & w & Hw & _) end.
        rewrite Hw in Hlen; simpl in Hlen; lia.
      - rewrite star_loop_cons.
        assert (Hstep : forall s1, Mat a s s1 -> Mat (RStar g a) s1 s' -> m a s (star_loop g a k f) <> None).
        { intros s1 H1 H2. eapply IHa; eauto. eapply IHf; eauto.
          destruct (nullable_false_moved _ _ _ H1 Hn) as (c' & w & Hw & _).
          rewrite Hw in Hlen; simpl in Hlen; rewrite app_length in Hlen; lia. }
        destruct g.
        + destruct (m a s (star_loop true a k f)) eqn:E; [discriminate|].
          inversion H; subst; auto. exfalso; eapply Hstep; eauto.
        + destruct (k s) eqn:E; [discriminate|].
          inversion H; subst; [congruence|eauto]. }
    eapply G; eauto.
  - inversion H; subst. eapply IHa; eauto.
  - inversion H; subst. match goal with h : find_cap _ _ = _ |- _ => rewrite h end.
    match goal with h : eat_lit _ _ = _ |- _ => rewrite h end. auto.
  - inversion H; subst. destruct (m a s' Some) eqn:E; auto.
    exfalso; eapply IHa; eauto; discriminate.
  - inversion H; subst. match goal with h : m _ _ _ = None |- _ => rewrite h end. auto.
  - inversion H; subst. match goal with h : m_before _ = _ |- _ => rewrite h end.
    match goal with h : in_cls _ _ = _ |- _ => rewrite h end. auto.
  - inversion H; subst. match goal with h : assert_holds _ _ _ = _ |- _ => rewrite h end. auto.
Qed.

(** A position at which the pattern matches. *)
Definition matches_at (r : re) (before after : str) : Prop :=
  exists s', Mat r (mk_mst before after []) s'.

Lemma match_at_sound r before after s :
  match_at r before after = Some s -> Mat r (mk_mst before after []) s.
Proof. intros H; apply m_sound in H as (s' & H1 & H2); congruence. Qed.

Lemma match_at_none r before after :
  wf_re r = true -> (match_at r before after = None <-> ~ matches_at r before after).
Proof.
  intros Hwf; split.
  - intros H [s' Hs]. eapply (m_complete r Hwf _ _ Some Hs); [discriminate|exact H].
  - intros H. destruct (match_at r before after) as [s|] eqn:E; auto.
    exfalso; apply H; exists s; apply match_at_sound; auto.
Qed.

Lemma match_at_none_of r before after :
  ~ matches_at r before after -> match_at r before after = None.
Proof.
  intros H. destruct (match_at r before after) as [s|] eqn:E; auto.
  exfalso; apply H; exists s; apply match_at_sound; auto.
Qed.

(** The text of a match is the consumed text. *)
Lemma cap_str_app w r : cap_str (w ++ r, r) = w.
Proof.
  unfold cap_str; simpl. rewrite app_length.
  replace (List.length w + List.length r - List.length r)%nat with (List.length w) by lia.
  rewrite firstn_app, Nat.sub_diag, firstn_all; simpl. apply app_nil_r.
Qed.

Lemma match_at_moved r before after s :
  match_at r before after = Some s ->
  exists w, after = w ++ m_after s /\ m_before s = rev w ++ before /\ h_text (mk_hit_of after s) = w.
Proof.
  intros H; apply match_at_sound in H. destruct (Mat_moved _ _ _ H) as (w & H1 & H2).
  simpl in H1, H2. exists w; split; [exact H1|split; [exact H2|]].
  unfold mk_hit_of; simpl. rewrite H1. apply cap_str_app.
Qed.

(** ** Iteration *)
Definition seg_text (g : seg) : str := match g with Lit c => [c] | Hit h => h_text h end.

Lemma scan_skip r : forall w before rest k last, List.length w = k ->
  scan r before (w ++ rest) k last = scan r (rev w ++ before) rest O (if k then last else true).
Proof.
  induction w as [|c w IH]; intros before rest k last Hk; simpl in Hk; subst k; simpl; auto.
  rewrite IH by reflexivity. rewrite <- app_assoc. simpl. destruct (List.length w); reflexivity.
Qed.

(** One step of the iteration. *)
Lemma scan_cons r before c rest last :
  scan r before (c :: rest) O last =
  match match_at r before (c :: rest) with
  | None => Lit c :: scan r (c :: before) rest O false
  | Some s =>
      match h_text (mk_hit_of (c :: rest) s) with
      | [] => if last then Lit c :: scan r (c :: before) rest O false
              else Hit (mk_hit_of (c :: rest) s) :: Lit c :: scan r (c :: before) rest O false
      | w => Hit (mk_hit_of (c :: rest) s) :: scan r (rev w ++ before) (m_after s) O true
      end
  end.
Proof.
  cbn [scan]. destruct (match_at r before (c :: rest)) as [s|] eqn:E; auto.
  destruct (match_at_moved _ _ _ _ E) as (w & H1 & H2 & H3). rewrite H3.
  destruct w as [|x w].
  - simpl in H1. rewrite <- H1. rewrite Nat.sub_diag. reflexivity.
  - simpl in H1. inversion H1; subst x.
    replace (List.length (c :: w ++ m_after s) - List.length (m_after s))%nat with (S (List.length w))
      by (simpl; rewrite app_length; destruct (List.length (m_after s)); lia).
    cbn [app]. rewrite scan_skip by reflexivity. simpl. rewrite <- app_assoc. simpl.
    destruct w; reflexivity.
Qed.

Lemma scan_nil r before last :
  scan r before [] O last =
  if last then [] else match match_at r before [] with
                       | Some s => [Hit (mk_hit_of [] s)] | None => [] end.
Proof. reflexivity. Qed.

Lemma scan_text r : forall n text before last, (List.length text <= n)%nat ->
  flat_map seg_text (scan r before text O last) = text.
Proof.
  induction n as [|n IH]; intros text before last Hn.
  - destruct text; [|simpl in Hn; lia]. rewrite scan_nil. destruct last; auto.
    destruct (match_at r before []) as [s|] eqn:E; auto.
  - destruct text as [|c rest].
    { rewrite scan_nil. destruct last; auto.
      destruct (match_at r before []) as [s|] eqn:E; auto. }
    rewrite scan_cons. simpl in Hn.
    destruct (match_at r before (c :: rest)) as [s|] eqn:E.
    2:{ simpl. rewrite IH by lia. reflexivity. }
    destruct (match_at_moved _ _ _ _ E) as (w & H1 & H2 & H3). rewrite H3.
    destruct w as [|x w].
    + destruct last; cbn [flat_map seg_text]; rewrite ?H3; simpl; rewrite IH by lia; reflexivity.
    + cbn [flat_map seg_text]. rewrite H3. rewrite IH.
      * auto.
      * assert (Hl : List.length (c :: rest) = List.length ((x :: w) ++ m_after s)) by (rewrite H1; auto).
        simpl in Hl. rewrite app_length in Hl. lia.
Qed.

Lemma segs_text r text : flat_map seg_text (segs r text) = text.
Proof. unfold segs. eapply scan_text; eauto. Qed.

(** Without a match the text is cut into characters. *)
Lemma scan_no_match r : forall text before,
  (forall w v, text = w ++ v -> match_at r (rev w ++ before) v = None) ->
  scan r before text O false = map Lit text.
Proof.
  induction text as [|c rest IH]; intros before H.
  - rewrite scan_nil. specialize (H [] [] eq_refl). simpl in H. rewrite H. reflexivity.
  - rewrite scan_cons. pose proof (H [] (c :: rest) eq_refl) as H0. simpl in H0. rewrite H0.
    simpl. f_equal. apply IH. intros w v E. specialize (H (c :: w) v). simpl in H.
    rewrite <- app_assoc in H. simpl in H. apply H. rewrite E; reflexivity.
Qed.

Definition no_match (r : re) (text : str) : Prop :=
  forall w v, text = w ++ v -> match_at r (rev w) v = None.

Lemma segs_no_match r text : no_match r text -> segs r text = map Lit text.
Proof. intros H. apply scan_no_match. intros w v E. rewrite app_nil_r. auto. Qed.

Lemma flat_map_lit f text : flat_map (fun g => match g with Lit c => [c] | Hit h => f h end) (map Lit text) = text.
Proof. induction text; simpl; congruence. Qed.

Lemma replace_all_no_match r f text : no_match r text -> replace_all r f text = text.
Proof. intros H. unfold replace_all. rewrite segs_no_match by auto. apply flat_map_lit. Qed.

Lemma replace_tmpl_no_match r t text : no_match r text -> replace_tmpl r t text = text.
Proof. apply replace_all_no_match. Qed.

Lemma find_from_no_match r : forall text before,
  (forall w v, text = w ++ v -> match_at r (rev w ++ before) v = None) ->
  find_from r before text = None.
Proof.
  induction text as [|c rest IH]; intros before H; simpl.
  - specialize (H [] [] eq_refl). simpl in H. rewrite H. reflexivity.
  - pose proof (H [] (c :: rest) eq_refl) as H0. simpl in H0. rewrite H0.
    apply IH. intros w v E. specialize (H (c :: w) v). simpl in H.
    rewrite <- app_assoc in H. simpl in H. apply H. rewrite E; reflexivity.
Qed.

Lemma captures_no_match r text : no_match r text -> captures r text = None.
Proof.
  intros H. unfold captures, find_first. rewrite find_from_no_match; auto.
  intros w v E; rewrite app_nil_r; auto.
Qed.

Lemma is_match_no_match r text : no_match r text -> is_match r text = false.
Proof. intros H. unfold is_match. rewrite captures_no_match; auto. Qed.

(** What a found match is. *)
Lemma find_from_some r : forall text before b h a, find_from r before text = Some (b, h, a) ->
  exists w v s, text = w ++ v /\ match_at r (rev w ++ before) v = Some s /\
                h = mk_hit_of v s /\ b = rev (rev w ++ before) /\ a = m_after s.
Proof.
  induction text as [|c rest IH]; intros before b h a H; simpl in H.
  - destruct (match_at r before []) as [s|] eqn:E; [|discriminate].
    inversion H; subst. exists [], [], s. auto.
  - destruct (match_at r before (c :: rest)) as [s|] eqn:E.
    + inversion H; subst. exists [], (c :: rest), s. auto.
    + apply IH in H as (w & v & s & H1 & H2 & H3 & H4 & H5).
      exists (c :: w), v, s. simpl. rewrite <- app_assoc. simpl. subst. auto.
Qed.

Lemma captures_some r text h : captures r text = Some h ->
  exists w v s, text = w ++ v /\ match_at r (rev w) v = Some s /\ h = mk_hit_of v s.
Proof.
  unfold captures, find_first. destruct (find_from r [] text) as [[[b h'] a]|] eqn:E; [|discriminate].
  simpl. intros H; inversion H; subst.
  apply find_from_some in E as (w & v & s & H1 & H2 & H3 & H4 & H5).
  rewrite app_nil_r in H2. exists w, v, s. auto.
Qed.

(** Every match of the iteration is a match of the pattern at its place. *)
Lemma scan_hit r : forall n text before last h, (List.length text <= n)%nat ->
  In (Hit h) (scan r before text O last) ->
  exists w v s, text = w ++ v /\ match_at r (rev w ++ before) v = Some s /\ h = mk_hit_of v s.
Proof.
  induction n as [|n IH]; intros text before last h Hn Hin.
  - destruct text; [|simpl in Hn; lia]. rewrite scan_nil in Hin.
    destruct last; [destruct Hin|].
    destruct (match_at r before []) as [s|] eqn:E; [|destruct Hin].
    destruct Hin as [Hin|[]]. inversion Hin; subst. exists [], [], s; auto.
  - destruct text as [|c rest].
    { rewrite scan_nil in Hin. destruct last; [destruct Hin|].
      destruct (match_at r before []) as [s|] eqn:E; [|destruct Hin].
      destruct Hin as [Hin|[]]. inversion Hin; subst. exists [], [], s; auto. }
    rewrite scan_cons in Hin. simpl in Hn.
    assert (Hlit : forall l, In (Hit h) (Lit c :: scan r (c :: before) rest O l) ->
      exists w v s, c :: rest = w ++ v /\ match_at r (rev w ++ before) v = Some s /\ h = mk_hit_of v s).
    { intros l [Hl|Hl]; [discriminate|]. apply IH in Hl; [|lia].
      destruct Hl as (w & v & s & H1 & H2 & H3). exists (c :: w), v, s. simpl.
      rewrite <- app_assoc. simpl. subst; auto. }
    destruct (match_at r before (c :: rest)) as [s|] eqn:E; [|eauto].
    destruct (match_at_moved _ _ _ _ E) as (w & H1 & H2 & H3). rewrite H3 in Hin.
    assert (Hhd : forall l, In (Hit h) (Hit (mk_hit_of (c :: rest) s) :: l) ->
      (exists w v s, c :: rest = w ++ v /\ match_at r (rev w ++ before) v = Some s /\ h = mk_hit_of v s)
      \/ In (Hit h) l).
    { intros l [Hl|Hl]; [left|auto]. inversion Hl; subst. exists [], (c :: rest), s; auto. }
    destruct w as [|x w].
    + destruct last; [eauto|]. apply Hhd in Hin as [Hin|Hin]; eauto.
    + apply Hhd in Hin as [Hin|Hin]; auto.
      apply IH in Hin.
      * destruct Hin as (w' & v & s' & H4 & H5 & H6).
        exists ((x :: w) ++ w'), v, s'. rewrite <- app_assoc, <- H4.
        split; [exact H1|]. split; [|exact H6].
        rewrite rev_app_distr, <- app_assoc. exact H5.
      * assert (Hl : List.length (c :: rest) = List.length ((x :: w) ++ m_after s)) by (rewrite H1; auto).
        simpl in Hl. rewrite app_length in Hl. lia.
Qed.

Lemma segs_hit r text h : In (Hit h) (segs r text) ->
  exists w v s, text = w ++ v /\ match_at r (rev w) v = Some s /\ h = mk_hit_of v s.
Proof.
  intros H. eapply scan_hit in H; eauto. destruct H as (w & v & s & H1 & H2 & H3).
  rewrite app_nil_r in H2. exists w, v, s; auto.
Qed.

(** ** Symbolic execution *)
Lemma m_eps s k : m REps s k = k s.
Proof. reflexivity. Qed.
Lemma m_seq a b s k : m (RSeq a b) s k = m a s (fun s' => m b s' k).
Proof. reflexivity. Qed.
Lemma m_cls c before x rest cs k :
  m (RCls c) (mk_mst before (x :: rest) cs) k =
  if in_cls c x then k (mk_mst (x :: before) rest cs) else None.
Proof. reflexivity. Qed.
Lemma m_cls_nil c before cs k : m (RCls c) (mk_mst before [] cs) k = None.
Proof. reflexivity. Qed.
Lemma m_alt a b s k : m (RAlt a b) s k = match m a s k with Some x => Some x | None => m b s k end.
Proof. reflexivity. Qed.
Lemma m_alt_l a b s k x : m a s k = Some x -> m (RAlt a b) s k = Some x.
Proof. rewrite m_alt; intros ->; reflexivity. Qed.
Lemma m_alt_r a b s k : m a s k = None -> m (RAlt a b) s k = m b s k.
Proof. rewrite m_alt; intros ->; reflexivity. Qed.
Lemma m_group n a before after cs k :
  m (RGroup n a) (mk_mst before after cs) k =
  m a (mk_mst before after cs) (fun s' => k (mk_mst (m_before s') (m_after s') ((n, (after, m_after s')) :: m_caps s'))).
Proof. reflexivity. Qed.
Lemma m_look a s k : m (RLook a) s k = match m a s Some with Some _ => k s | None => None end.
Proof. reflexivity. Qed.
Lemma m_nlook a s k : m (RNLook a) s k = match m a s Some with Some _ => None | None => k s end.
Proof. reflexivity. Qed.
Lemma m_assert a before after cs k :
  m (RAssert a) (mk_mst before after cs) k = if assert_holds a before after then k (mk_mst before after cs) else None.
Proof. reflexivity. Qed.
Lemma m_back c x before after cs k :
  m (RBack c) (mk_mst (x :: before) after cs) k = if in_cls c x then k (mk_mst (x :: before) after cs) else None.
Proof. reflexivity. Qed.
Lemma m_back_nil c after cs k : m (RBack c) (mk_mst [] after cs) k = None.
Proof. reflexivity. Qed.

(** The text starts with no character of the class. *)
Definition stops (c : cls) (rest : str) : Prop := match rest with [] => True | x :: _ => in_cls c x = false end.

(** A greedy loop over a class takes the whole run if the rest then matches. *)
Lemma m_star_greedy c k y : forall w before rest cs,
  forallb (in_cls c) w = true -> stops c rest ->
  k (mk_mst (rev w ++ before) rest cs) = Some y ->
  m (RStar true (RCls c)) (mk_mst before (w ++ rest) cs) k = Some y.
Proof.
  intros w before rest cs Hw Hr Hk. rewrite m_star. cbn [m_after].
  assert (G : forall w f before, forallb (in_cls c) w = true -> stops c rest ->
              k (mk_mst (rev w ++ before) rest cs) = Some y -> (List.length w <= List.length f)%nat ->
              star_loop true (RCls c) k f (mk_mst before (w ++ rest) cs) = Some y).
  { clear Hw Hk w before. induction w as [|x w IH]; intros f before Hw _ Hk Hlen.
    - destruct f as [|z f]; [exact Hk|]. rewrite star_loop_cons. simpl app.
      destruct rest as [|x rest]; [rewrite m_cls_nil; exact Hk|].
      rewrite m_cls. simpl in Hr. rewrite Hr. exact Hk.
    - destruct f as [|z f]; [simpl in Hlen; lia|]. rewrite star_loop_cons. simpl app. rewrite m_cls.
      simpl in Hw. apply andb_true_iff in Hw as [Hx Hw]. rewrite Hx.
      rewrite IH; auto; [|simpl in Hlen; lia]. simpl in Hk. rewrite <- app_assoc in Hk. exact Hk. }
  apply G; auto. rewrite app_length; lia.
Qed.

(** A greedy loop over a class fails if the rest fails after every prefix of the run. *)
Lemma m_star_none c g k : forall w before rest cs,
  stops c rest ->
  (forall w1 w2, w = w1 ++ w2 -> k (mk_mst (rev w1 ++ before) (w2 ++ rest) cs) = None) ->
  m (RStar g (RCls c)) (mk_mst before (w ++ rest) cs) k = None.
Proof.
  intros w before rest cs Hr Hk. rewrite m_star. cbn [m_after]. generalize (w ++ rest) at 1 as f.
  intros f. revert w before Hk.
  induction f as [|z f IH]; intros w before Hk.
  - apply (Hk [] w eq_refl).
  - rewrite star_loop_cons. pose proof (Hk [] w eq_refl) as H0. simpl in H0. rewrite H0.
    assert (Hm : m (RCls c) (mk_mst before (w ++ rest) cs) (star_loop g (RCls c) k f) = None).
    { destruct w as [|x w].
      - simpl app. destruct rest as [|x rest]; [reflexivity|]. rewrite m_cls. simpl in Hr. rewrite Hr. reflexivity.
      - simpl app. rewrite m_cls. destruct (in_cls c x); auto. apply IH.
        intros w1 w2 E. specialize (Hk (x :: w1) w2). simpl in Hk. rewrite <- app_assoc in Hk.
        apply Hk. rewrite E; reflexivity. }
    rewrite Hm. destruct g; reflexivity.
Qed.
