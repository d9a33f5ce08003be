(** Iteration, substitution and splitting. *)
From Verif Require Import Str Unicode Regex RegexParse RegexSnips RegexTheory RegexGroups Lib ModelBase SpecRegex.

Fixpoint weave (lits : list str) (hits : list hit) : list seg :=
  match lits, hits with
  | [], _ => []
  | x :: _, [] => map Lit x
  | x :: lits', h :: hits' => map Lit x ++ Hit h :: weave lits' hits'
  end.

Lemma cut_cons r adj c before rest l ls hits : wf_re r = true ->
  cut r false (c :: before) rest (l :: ls) hits ->
  (~ matches_here r before (c :: rest) \/
   (adj = true /\ exists s, match_at r before (c :: rest) = Some s /\ m_after s = c :: rest)) ->
  cut r adj before (c :: rest) ((c :: l) :: ls) hits.
Proof.
  intros Hwf H Hc.
  assert (G : forall l' rest', gap r false (c :: before) l' rest' ->
     (~ matches_here r before (c :: l' ++ rest') \/
     (adj = true /\ exists s, match_at r before (c :: l' ++ rest') = Some s /\ m_after s = c :: l' ++ rest')) ->
     gap r adj before (c :: l') rest').
  { intros l' rest' Hg Hm w x v E. destruct w as [|y w].
    - cbn in E. inversion E; subst. cbn [rev app]. destruct Hm as [Hm|[H1 (s & H2 & H3)]]; [auto|].
      right. split; auto. split; auto. eauto.
    - cbn in E. inversion E; subst. left. destruct (Hg w x v eq_refl) as [H0|(H0 & _)]; [|discriminate].
      cbn [rev]. rewrite <- app_assoc. exact H0. }
  inversion H as [a0 b0 l0 Hg Hend|a0 b0 l0 rest0 s lits hits0 Hg Hm Hadj Hcut]; subst.
  - apply CutEnd.
    + apply G; auto. rewrite app_nil_r. exact Hc.
    + right. destruct Hend as [[He _]|He]; [discriminate|]. cbn [rev]. rewrite <- app_assoc. exact He.
  - apply (CutHit r adj before (c :: l) rest0 s ls hits0); auto.
    + cbn [rev]. rewrite <- app_assoc. exact Hm.
    + intros _ E; discriminate.
Qed.

Lemma scan_cut r : wf_re r = true -> forall n text before last, (List.length text <= n)%nat ->
  exists lits hits, cut r last before text lits hits /\ scan r before text O last = weave lits hits.
Proof.
  intros Hwf.
  assert (NM : forall b a, match_at r b a = None -> ~ matches_here r b a).
  { intros b a H. apply match_at_none in H; auto. }
  induction n as [|n IH]; intros text before last Hn.
  - destruct text; [|simpl in Hn; lia]. rewrite scan_nil. destruct last.
    + exists [[]], []. split; [|reflexivity]. apply CutEnd; auto.
      intros w c v E. destruct w; discriminate.
    + destruct (match_at r before []) as [s|] eqn:E.
      * exists [[]; []], [mk_hit_of [] s]. split; [|reflexivity].
        apply (CutHit r false before [] [] s [[]] []); auto.
        -- intros w c v E'. destruct w; discriminate.
        -- discriminate.
        -- destruct (match_at_moved _ _ _ _ E) as (w & H1 & H2 & H3).
           destruct w; [|discriminate]. cbn in H1. rewrite <- H1. apply CutEnd; auto.
           intros w c v E'. destruct w; discriminate.
      * exists [[]], []. split; [|reflexivity]. apply CutEnd; auto.
        intros w c v E'. destruct w; discriminate.
  - destruct text as [|c rest].
    { apply (IH [] before last). simpl; lia. }
    rewrite scan_cons. simpl in Hn.
    assert (Hlit : (~ matches_here r before (c :: rest) \/
                    (last = true /\ exists s, match_at r before (c :: rest) = Some s /\ m_after s = c :: rest)) ->
            exists lits hits, cut r last before (c :: rest) lits hits /\
                              Lit c :: scan r (c :: before) rest O false = weave lits hits).
    { intros Hc. destruct (IH rest (c :: before) false ltac:(lia)) as (lits & hits & H1 & H2).
      destruct lits as [|l ls]; [inversion H1|].
      exists ((c :: l) :: ls), hits. split; [apply cut_cons; auto|].
      rewrite H2. destruct hits; reflexivity. }
    destruct (match_at r before (c :: rest)) as [s|] eqn:E.
    2:{ apply Hlit. left; auto. }
    destruct (match_at_moved _ _ _ _ E) as (w & H1 & H2 & H3). rewrite H3.
    destruct w as [|x w].
    + cbn [List.length]. cbn in H1. destruct last.
      * apply Hlit. right. eauto.
      * destruct (IH rest (c :: before) false ltac:(lia)) as (lits & hits & H4 & H5).
        destruct lits as [|l ls]; [inversion H4|].
        exists ([] :: (c :: l) :: ls), (mk_hit_of (c :: rest) s :: hits). split.
        -- apply (CutHit r false before [] (c :: rest) s); auto.
           ++ intros w c' v E'. destruct w; discriminate.
           ++ discriminate.
           ++ rewrite <- H1. cbn in H2. rewrite H2. apply cut_cons; auto. right; split; eauto.
        -- cbn [weave map app]. rewrite H5. destruct hits; reflexivity.
    + cbn [List.length] in *.
      assert (Hl : List.length (c :: rest) = List.length ((x :: w) ++ m_after s)) by (rewrite H1; auto).
      simpl in Hl. rewrite app_length in Hl.
      destruct (IH (m_after s) (m_before s) true ltac:(lia)) as (lits & hits & H4 & H5).
      exists ([] :: lits), (mk_hit_of (c :: rest) s :: hits). split.
      * apply (CutHit r last before [] (c :: rest) s); auto.
        -- intros w' c' v E'. destruct w'; discriminate.
        -- intros _ _ E'. rewrite E' in H1. apply (f_equal (@List.length N)) in H1.
           simpl in H1. rewrite app_length in H1. simpl in H1. lia.
      * cbn [weave map app]. rewrite <- H5. f_equal. rewrite H2. cbn [rev app] in *.
        inversion H1; subst. reflexivity.
Qed.

Lemma segs_cut r text : wf_re r = true ->
  exists lits hits, cut r false [] text lits hits /\ segs r text = weave lits hits.
Proof. intros H. eapply scan_cut; eauto. Qed.

Lemma cut_length r adj before text lits hits : cut r adj before text lits hits ->
  List.length lits = S (List.length hits).
Proof. induction 1; simpl; auto. Qed.

Lemma cut_text r adj before text lits hits : cut r adj before text lits hits ->
  text = interleave lits (map h_text hits).
Proof.
  induction 1 as [|adj before lit rest s lits hits Hg Hm Hadj Hc IH]; [reflexivity|].
  cbn [interleave map]. rewrite <- IH. f_equal.
  destruct (match_at_moved _ _ _ _ Hm) as (w & H1 & H2 & H3).
  unfold mk_hit_of. cbn [h_text]. rewrite H1 at 1 2. rewrite cap_str_app. reflexivity.
Qed.

Lemma weave_replace lits : forall hits (f : hit -> str), List.length lits = S (List.length hits) ->
  flat_map (fun g => match g with Lit c => [c] | Hit h => f h end) (weave lits hits) = interleave lits (map f hits).
Proof.
  assert (L : forall (f : hit -> str) x, flat_map (fun g => match g with Lit c => [c] | Hit h => f h end) (map Lit x) = x).
  { intros f x. induction x as [|c x IH]; cbn; auto. rewrite IH; auto. }
  induction lits as [|x lits IH]; intros [|h hits] f Hl; simpl in Hl; try lia.
  - cbn [weave interleave map]. apply L.
  - cbn [weave interleave map]. rewrite flat_map_app, L. cbn [flat_map]. rewrite IH by lia. reflexivity.
Qed.

Lemma substitution r f text : wf_re r = true ->
  exists lits hits, cut r false [] text lits hits /\
    text = interleave lits (map h_text hits) /\ replace_all r f text = interleave lits (map f hits).
Proof.
  intros Hwf. destruct (segs_cut r text Hwf) as (lits & hits & H1 & H2). exists lits, hits.
  split; auto. split; [eapply cut_text; eauto|].
  unfold replace_all. rewrite H2. apply weave_replace. eapply cut_length; eauto.
Qed.

Lemma substitution_none r f text : (forall w v, text = w ++ v -> ~ matches_here r (rev w) v) -> replace_all r f text = text.
Proof.
  intros H. apply replace_all_no_match. intros w v E. apply match_at_none_of. apply H; auto.
Qed.

(** ** Splitting *)
Lemma split_go_lits n x : forall acc l, split_go n (map Lit x ++ l) acc = split_go n l (rev x ++ acc).
Proof.
  induction x as [|c x IH]; intros acc l; cbn [map app split_go rev]; auto.
  rewrite IH. rewrite <- app_assoc. reflexivity.
Qed.

Definition is_some (o : option str) : bool := match o with Some _ => true | None => false end.

Lemma split_hit n h l acc : split_go n (Hit h :: l) acc =
  if forallb is_some (group_texts n h) then
    match split_go n l [] with Some ps => Some (rev acc :: map some_or (group_texts n h) ++ ps) | None => None end
  else None.
Proof. reflexivity. Qed.

Lemma split_weave n lits : forall hits ps acc, List.length lits = S (List.length hits) ->
  split_go n (weave lits hits) acc = Some ps ->
  Forall (fun h => forall k, (1 <= k < n)%nat -> cap_text k (h_caps h) <> None) hits /\
  exists l ls, lits = l :: ls /\ ps = pieces ((rev acc ++ l) :: ls) (map (fun h => map some_or (group_texts n h)) hits).
Proof.
  induction lits as [|x lits IH]; intros [|h hits] ps acc Hl H; simpl in Hl; try lia; cbn [weave] in H.
  - split; auto. exists x, lits. split; auto.
    rewrite <- (app_nil_r (map Lit x)), split_go_lits in H. cbn in H. inversion H; subst.
    rewrite rev_app_distr, rev_involutive. reflexivity.
  - rewrite split_go_lits, split_hit in H.
    destruct (forallb _ _) eqn:E in H; [|discriminate].
    destruct (split_go n (weave lits hits) []) as [ps'|] eqn:E2; [|discriminate]. inversion H; subst.
    apply IH in E2 as [H1 (l & ls & -> & ->)]; [|lia]. split.
    + constructor; auto. intros k Hk E3. rewrite forallb_forall in E.
      specialize (E (cap_text k (h_caps h))). rewrite E3 in E. cbn in E.
      assert (false = true); [|discriminate]. apply E.
      apply in_map_iff. exists k. split; auto. apply in_seq; lia.
    + exists x, (l :: ls). split; auto. cbn [pieces map].
      rewrite rev_app_distr, rev_involutive. reflexivity.
Qed.

Lemma split_total n lits : forall hits acc, List.length lits = S (List.length hits) ->
  Forall (fun h => forall k, (1 <= k < n)%nat -> cap_text k (h_caps h) <> None) hits ->
  exists ps, split_go n (weave lits hits) acc = Some ps.
Proof.
  induction lits as [|x lits IH]; intros [|h hits] acc Hl H; simpl in Hl; try lia; cbn [weave].
  - rewrite <- (app_nil_r (map Lit x)), split_go_lits. cbn. eauto.
  - rewrite split_go_lits, split_hit. inversion H as [|? ? Hh Hr]; subst.
    destruct (IH hits [] ltac:(lia) Hr) as [ps Hps]. rewrite Hps.
    replace (forallb is_some (group_texts n h)) with true; [eauto|].
    symmetry. apply forallb_forall. intros o Ho. apply in_map_iff in Ho as (k & <- & Hk). apply in_seq in Hk.
    specialize (Hh k ltac:(lia)). destruct (cap_text k (h_caps h)); auto.
Qed.

Lemma splitting r text ps : wf_re (rx_re r) = true -> split_rx r text = Some ps ->
  exists lits hits, cut (rx_re r) false [] text lits hits /\
    text = interleave lits (map h_text hits) /\ ps = pieces lits (map (hit_groups (rx_len r)) hits).
Proof.
  intros Hwf H. destruct (segs_cut (rx_re r) text Hwf) as (lits & hits & H1 & H2). exists lits, hits.
  split; auto. split; [eapply cut_text; eauto|].
  unfold split_rx in H. rewrite H2 in H. apply split_weave in H as [_ (l & ls & -> & ->)]; [|eapply cut_length; eauto].
  reflexivity.
Qed.

Lemma splitting_total r text : wf_re (rx_re r) = true ->
  (forall k, (1 <= k < rx_len r)%nat -> always k (rx_re r) = true) -> exists ps, split_rx r text = Some ps.
Proof.
  intros Hwf Ha. unfold split_rx. pose proof (segs_hits (rx_re r) text) as Hh.
  destruct (segs_cut (rx_re r) text Hwf) as (lits & hits & H1 & H2). rewrite H2 in *.
  apply split_total; [eapply cut_length; eauto|].
  apply Forall_forall. intros h Hin k Hk.
  destruct (hit_always (rx_re r) h k) as [t Ht]; auto; [|congruence].
  apply Hh. clear - Hin H1. apply cut_length in H1. revert hits Hin H1.
  induction lits as [|x lits IH]; intros [|h' hits] Hin Hl; simpl in *; try lia; try tauto.
  apply in_or_app. right. destruct Hin as [ -> |Hin]; [left; auto|right; apply IH; auto].
Qed.

(** The pattern with no group: only the literals are kept.  The pattern wholly in one
    group: literals and matches, so that the pieces are the text. *)
Lemma pieces_none n lits : forall hits, (n <= 1)%nat -> List.length lits = S (List.length hits) ->
  pieces lits (map (hit_groups n) hits) = lits.
Proof.
  induction lits as [|x lits IH]; intros [|h hits] Hn Hl; simpl in Hl; try lia; cbn [pieces map].
  - destruct lits; [auto|simpl in Hl; lia].
  - rewrite IH by lia. unfold hit_groups, group_texts. replace (n - 1)%nat with O by lia. reflexivity.
Qed.

Lemma group_whole a b t s : match_at (RGroup 1 a) b t = Some s ->
  cap_text 1 (h_caps (mk_hit_of t s)) = Some (h_text (mk_hit_of t s)).
Proof.
  intros H. apply match_at_sound in H.
  inversion H as [| | | | | | |n0 a0 s0 s1 Ha| | | | |]; subst. reflexivity.
Qed.

Lemma cut_whole a adj before text lits hits : cut (RGroup 1 a) adj before text lits hits ->
  List.concat (pieces lits (map (hit_groups 2) hits)) = text.
Proof.
  intros H. pose proof (cut_text _ _ _ _ _ _ H) as Ht. rewrite Ht. clear Ht.
  induction H as [|adj before lit rest s lits hits Hg Hm Hadj Hc IH]; cbn [pieces map interleave].
  - cbn. apply app_nil_r.
  - cbn [List.concat]. rewrite concat_app, IH. f_equal. f_equal.
    unfold hit_groups, group_texts. cbn [seq map Nat.sub List.concat]. rewrite app_nil_r.
    erewrite group_whole by eauto. reflexivity.
Qed.

Lemma splitting_plain r text ps : wf_re (rx_re r) = true -> rx_len r = 1%nat -> split_rx r text = Some ps ->
  exists hits, cut (rx_re r) false [] text ps hits /\ text = interleave ps (map h_text hits).
Proof.
  intros Hwf Hl H. destruct (splitting r text ps Hwf H) as (lits & hits & H1 & H2 & H3).
  rewrite H3, pieces_none; [eauto|lia|eapply cut_length; eauto].
Qed.
Lemma splitting_whole a names text : wf_re a = true ->
  exists ps, split_rx (mk_rx (RGroup 1 a) 2 names) text = Some ps /\ List.concat ps = text.
Proof.
  intros Hwf. destruct (splitting_total (mk_rx (RGroup 1 a) 2 names) text) as [ps Hps]; auto.
  - cbn. intros k Hk. replace k with 1%nat by lia. reflexivity.
  - exists ps. split; auto. apply splitting in Hps as (lits & hits & H1 & H2 & H3); auto.
    rewrite H3. eapply cut_whole; eauto.
Qed.

(** ** Substitution with a state *)
Lemma mapM_lits f x s : mapM (replace_segM f) (map Lit x) s = Ret (map (fun c => [c]) x) s.
Proof.
  revert s; induction x as [|c x IH]; intros s; cbn; auto. unfold bind. rewrite IH. reflexivity.
Qed.
Lemma mapM_app {A B} (f : A -> M B) l1 l2 s : mapM f (l1 ++ l2) s =
  bind (mapM f l1) (fun a => bind (mapM f l2) (fun b => ret (a ++ b))) s.
Proof.
  revert s; induction l1 as [|x l1 IH]; intros s; cbn [mapM app].
  - unfold bind, ret. destruct (mapM f l2 s); reflexivity.
  - unfold bind, ret in *. destruct (f x s) as [v s1| |]; auto. rewrite IH.
    destruct (mapM f l1 s1) as [v2 s2| |]; auto. destruct (mapM f l2 s2); auto.
Qed.
Lemma concat_one (x : str) : List.concat (map (fun c => [c]) x) = x.
Proof. induction x; cbn; congruence. Qed.

Lemma substitutionM_weave f lits : forall hits s, List.length lits = S (List.length hits) ->
  bind (mapM (replace_segM f) (weave lits hits)) (fun l => ret (List.concat l)) s =
  bind (mapM f hits) (fun ts => ret (interleave lits ts)) s.
Proof.
  induction lits as [|x lits IH]; intros [|h hits] s Hl; simpl in Hl; try lia; cbn [weave interleave].
  - unfold bind, ret. rewrite mapM_lits, concat_one. reflexivity.
  - assert (Hl' : List.length lits = S (List.length hits)) by lia.
    unfold bind at 1. rewrite mapM_app. unfold bind at 1. rewrite mapM_lits. unfold bind at 1.
    cbn [mapM replace_segM]. unfold bind at 1 3 4. destruct (f h s) as [v s1| |]; auto.
    specialize (IH hits s1 Hl'). unfold bind, ret in *.
    destruct (mapM (replace_segM f) (weave lits hits) s1) as [l s2| |], (mapM f hits s1) as [ts s3| |]; try discriminate IH; try congruence.
    inversion IH as [[E1 E2]]; subst. f_equal. rewrite concat_app, concat_one. cbn [List.concat]. rewrite E1. reflexivity.
Qed.

Lemma substitutionM r f text s : wf_re r = true ->
  exists lits hits, cut r false [] text lits hits /\ text = interleave lits (map h_text hits) /\
    replace_allM r f text s = bind (mapM f hits) (fun ts => ret (interleave lits ts)) s.
Proof.
  intros Hwf. destruct (segs_cut r text Hwf) as (lits & hits & H1 & H2). exists lits, hits.
  split; auto. split; [eapply cut_text; eauto|].
  unfold replace_allM. rewrite H2. apply substitutionM_weave. eapply cut_length; eauto.
Qed.

(** ** The patterns of the program *)
Lemma program_patterns : Forall (fun r => wf_re (rx_re r) = true) all_rx.
Proof. apply Forall_forall. apply forallb_forall. vm_compute. reflexivity. Qed.

Lemma program_splits r text :
  In r [GLYPH_SPLITTER_RE; SLICE_RE; LIST_SPLITTER; RC_SPLITTER; COMPONENTS_RE; MULTI_ENDLINE_RE] ->
  exists ps, split_rx r text = Some ps.
Proof.
  intros H. cbn [In] in H.
  assert (forallb (fun r => wf_re (rx_re r) && forallb (fun k => always k (rx_re r)) (seq 1 (rx_len r - 1)))
    [GLYPH_SPLITTER_RE; SLICE_RE; LIST_SPLITTER; RC_SPLITTER; COMPONENTS_RE; MULTI_ENDLINE_RE] = true) as A.
  { vm_compute. reflexivity. }
  rewrite forallb_forall in A. specialize (A r H). apply andb_true_iff in A as [A1 A2].
  apply splitting_total; auto. intros k Hk. rewrite forallb_forall in A2. apply A2. apply in_seq. lia.
Qed.
