(** Links: the end of a URL, marking and rewriting. *)
From Coq Require Import ZArith.
From Verif Require Import Str Unicode Regex RegexParse RegexSnips RegexTheory RegexGroups Lib ModelBase ModelHtml ModelUrl
  ModelAttrs ModelInline ModelParser SpecRegex ProofRegex SpecParse ProofParse Logic ProofWalk ProofState ProofMemory ProofSpan SpecLinks.
#[local] Arguments u : simpl never.

(** ** The patterns that look at the end of a URL *)
Definition no_nl : cls := mk_cls true [CRange 10 10].
Definition az : cls := mk_cls false [CRange 97 122].
Lemma in_no_nl c : in_cls no_nl c = negb (c =? 10).
Proof.
  unfold in_cls, no_nl. cbn [c_neg c_items existsb in_item]. rewrite orb_false_r, xorb_true_l. f_equal.
  destruct (N.eqb_spec c 10); subst; auto. destruct (N.leb_spec 10 c), (N.leb_spec c 10); auto; lia.
Qed.
Lemma in_az c : in_cls az c = true <-> 97 <= c <= 122.
Proof. unfold in_cls, az. cbn [c_neg c_items existsb in_item]. rewrite orb_false_r, xorb_false_l, andb_true_iff, !N.leb_le. tauto. Qed.
Lemma close_tag_shape : rx_re LINK_CLOSE_TAG_RE =
  RSeq (RAssert SOT) (RSeq (RGroup 1 (RStar true (RCls no_nl)))
    (RSeq (RGroup 2 (RSeq (RCls (one 60)) (RSeq (RCls (one 47)) (RSeq (RCls az) (RStar true (RCls az)))))) (RAssert EOT))).
Proof. reflexivity. Qed.
Lemma tight_shape : rx_re LINK_URL_TIGHT_RE =
  RSeq (RGroup 1 (RSeq (RAssert SOT) (RSeq (RStar true (RCls no_nl)) (RCls (one 93)))))
    (RSeq (RGroup 2 (RSeq (RCls (one 91)) (RStar false (RCls no_nl)))) (RAssert EOT)).
Proof. reflexivity. Qed.
Lemma end_shape : rx_re LINK_URL_END_RE =
  RSeq (RGroup 1 (RSeq (RAssert SOT) (RSeq (RStar true (RCls no_nl)) (RCls (one 93)))))
    (RSeq (RNLook (RCls (one 61))) (RSeq (RGroup 2 (RStar false (RCls no_nl))) (RAssert EOT))).
Proof. reflexivity. Qed.

(** Inversions of [Mat]. *)
Lemma mat_seq a b s s' : Mat (RSeq a b) s s' -> exists s1, Mat a s s1 /\ Mat b s1 s'.
Proof. intros H. inversion H; subst. eauto. Qed.
Lemma mat_group n a s s' : Mat (RGroup n a) s s' ->
  exists s1, Mat a s s1 /\ s' = mk_mst (m_before s1) (m_after s1) ((n, (m_after s, m_after s1)) :: m_caps s1).
Proof. intros H. inversion H; subst. eauto. Qed.
Lemma mat_assert a s s' : Mat (RAssert a) s s' -> s' = s /\ assert_holds a (m_before s) (m_after s) = true.
Proof. intros H. inversion H; subst. auto. Qed.
Lemma mat_cls k s s' : Mat (RCls k) s s' -> exists x rest, m_after s = x :: rest /\ in_cls k x = true /\ s' = step s x rest.
Proof. intros H. inversion H; subst. eauto. Qed.
Lemma mat_nlook a s s' : Mat (RNLook a) s s' -> s' = s.
Proof. intros H. inversion H; subst. auto. Qed.
(** The captures a loop over a class leaves alone. *)
Lemma mat_star_cls g k s s' : Mat (RStar g (RCls k)) s s' ->
  exists w, moved s w s' /\ forallb (in_cls k) w = true /\ m_caps s' = m_caps s.
Proof.
  remember (RStar g (RCls k)) as r eqn:Er. induction 1; inversion Er; subst.
  - exists []. repeat split.
  - apply mat_cls in H as (x & rest & H1 & H2 & ->). destruct IHMat2 as (w & H3 & H4 & H5); auto.
    exists (x :: w). split; [change (x :: w) with ([x] ++ w); eapply moved_trans; [apply moved_step; eauto|exact H3]|].
    cbn [forallb]. rewrite H2, H4. auto.
Qed.

(** Any match of such a pattern splits the text. *)
Lemma close_tag_some q h : captures (rx_re LINK_CLOSE_TAG_RE) q = Some h ->
  exists kept name, q = kept ++ u "</" ++ name /\ lower_name name /\ cap_opt 1 h = Some kept /\ cap_opt 2 h = Some (u "</" ++ name).
Proof.
  intros H. apply captures_some in H as (w & v & s & -> & H & ->). apply match_at_sound in H. rewrite close_tag_shape in H.
  apply mat_seq in H as (s1 & H1 & H). apply mat_assert in H1 as [-> H1]. cbn [m_before m_after] in H1.
  assert (w = []) as -> by (destruct w as [|x w]; [auto|cbn in H1; destruct (rev w); discriminate]). clear H1.
  apply mat_seq in H as (s1 & H1 & H). apply mat_group in H1 as (s2 & H1 & ->). apply mat_star_cls in H1 as (kept & [M1 _] & _ & Hc).
  apply mat_seq in H as (s3 & H1 & H). apply mat_group in H1 as (s4 & H1 & ->). apply mat_assert in H as [-> He]. cbn [m_before m_after m_caps] in *.
  apply mat_seq in H1 as (s5 & H2 & H1). apply mat_cls in H2 as (x & rest & H2 & Hx & ->). rewrite in_one in Hx. apply N.eqb_eq in Hx. subst x.
  apply mat_seq in H1 as (s6 & H3 & H1). apply mat_cls in H3 as (x & rest' & H3 & Hx & ->). rewrite in_one in Hx. apply N.eqb_eq in Hx. subst x.
  apply mat_seq in H1 as (s7 & H4 & H1). apply mat_cls in H4 as (x & rest'' & H4 & Hx & ->). apply mat_star_cls in H1 as (nm & [M2 _] & Hn & Hc2).
  cbn [m_after m_before m_caps step] in *. destruct (m_after s4) as [|? ?] eqn:E; [|discriminate].
  rewrite app_nil_r in M2. subst nm rest rest'. exists kept, (x :: rest''). rewrite M1, H2. split; [reflexivity|]. split.
  - split; [discriminate|]. constructor; [apply in_az; auto|]. apply Forall_forall. intros y Hy. apply in_az. rewrite forallb_forall in Hn. auto.
  - unfold cap_opt, cap_text, mk_hit_of. cbn [h_caps m_caps]. cbn [find_cap Nat.eqb option_map]. rewrite Hc2. cbn [find_cap Nat.eqb option_map fst snd].
    rewrite H2, M1, H2, cap_str_app. split; [reflexivity|]. rewrite <- (app_nil_r (60 :: 47 :: x :: rest'')) at 1. rewrite cap_str_app. reflexivity.
Qed.
Lemma star_mat g k : forall w before rest cs, forallb (in_cls k) w = true ->
  Mat (RStar g (RCls k)) (mk_mst before (w ++ rest) cs) (mk_mst (rev w ++ before) rest cs).
Proof.
  induction w as [|x w IH]; intros before rest cs H; cbn [forallb] in H; [constructor|].
  apply andb_true_iff in H as [H1 H2]. econstructor; [apply (MCls k _ x (w ++ rest)); [reflexivity|exact H1]|].
  cbn [step m_before m_caps rev]. rewrite <- app_assoc. apply IH; auto.
Qed.
Lemma star_mat_end g k w before cs : forallb (in_cls k) w = true ->
  Mat (RStar g (RCls k)) (mk_mst before w cs) (mk_mst (rev w ++ before) [] cs).
Proof. intros H. pose proof (star_mat g k w before [] cs H) as M. rewrite app_nil_r in M. exact M. Qed.
Lemma captures_complete r text s : wf_re r = true -> Mat r (mk_mst [] text []) s -> captures r text <> None.
Proof.
  intros Hwf H. destruct (match_at r [] text) as [s'|] eqn:E.
  - rewrite (captures_first _ _ _ E). discriminate.
  - apply match_at_none in E; auto. exfalso. apply E. exists s. exact H.
Qed.
Lemma close_tag_none q : ~ In 10 q -> captures (rx_re LINK_CLOSE_TAG_RE) q = None ->
  ~ exists q' name, lower_name name /\ q = q' ++ u "</" ++ name.
Proof.
  intros Hnl Hn (q' & name & [Hne Hl] & ->). destruct name as [|x name]; [congruence|]. inversion Hl as [|? ? Hx Hl']; subst.
  revert Hn. eapply captures_complete; [reflexivity|]. rewrite close_tag_shape.
  econstructor; [constructor; reflexivity|]. econstructor.
  { constructor. apply star_mat. apply forallb_forall. intros c Hc. rewrite in_no_nl. apply negb_true_iff, N.eqb_neq.
    intros ->. apply Hnl. apply in_or_app; auto. }
  cbn [m_before m_after m_caps]. econstructor; [constructor|constructor; shelve]. lits. cbn [app].
  econstructor; [apply (MCls _ _ 60 (47 :: x :: name)); reflexivity|]. cbn [step m_before m_caps].
  econstructor; [apply (MCls _ _ 47 (x :: name)); reflexivity|]. cbn [step m_before m_caps].
  econstructor; [apply (MCls _ _ x name); [reflexivity|apply in_az; auto]|]. cbn [step m_before m_caps].
  apply star_mat_end. apply forallb_forall. intros c Hc. apply in_az. rewrite Forall_forall in Hl'. auto.
  Unshelve. reflexivity.
Qed.
Lemma sot_nil w v cs : assert_holds SOT (rev w) v = true -> @nil (nat * (str * str)) = cs -> w = [].
Proof. intros H _. destruct w as [|x w]; [auto|cbn in H; destruct (rev w); discriminate]. Qed.
Lemma tight_some q h : captures (rx_re LINK_URL_TIGHT_RE) q = Some h ->
  exists a b, q = (a ++ [93]) ++ 91 :: b /\ cap_opt 1 h = Some (a ++ [93]) /\ cap_opt 2 h = Some (91 :: b).
Proof.
  intros H. apply captures_some in H as (w & v & s & -> & H & ->). apply match_at_sound in H. rewrite tight_shape in H.
  apply mat_seq in H as (s1 & H1 & H). apply mat_group in H1 as (s2 & H1 & ->).
  apply mat_seq in H1 as (s3 & H2 & H1). apply mat_assert in H2 as [-> H2]. cbn [m_before m_after] in H2.
  assert (w = []) as -> by (eapply sot_nil; eauto). clear H2.
  apply mat_seq in H1 as (s4 & H2 & H1). apply mat_star_cls in H2 as (a & [M1 _] & _ & Hc).
  apply mat_cls in H1 as (x & rest & H1 & Hx & ->). rewrite in_one in Hx. apply N.eqb_eq in Hx. subst x.
  apply mat_seq in H as (s5 & H2 & H). apply mat_group in H2 as (s6 & H2 & ->). apply mat_assert in H as [-> He].
  apply mat_seq in H2 as (s7 & H3 & H2). apply mat_cls in H3 as (x & rest' & H3 & Hx & ->). rewrite in_one in Hx. apply N.eqb_eq in Hx. subst x.
  apply mat_star_cls in H2 as (b & [M2 _] & _ & Hc2). cbn [m_after m_before m_caps step] in *.
  destruct (m_after s6) as [|? ?] eqn:E; [|discriminate]. rewrite app_nil_r in M2. subst rest' rest. exists a, b.
  rewrite M1, H1. split; [rewrite <- app_assoc; reflexivity|].
  unfold cap_opt, cap_text, mk_hit_of. cbn [h_caps m_caps]. cbn [find_cap Nat.eqb option_map]. rewrite Hc2. cbn [find_cap Nat.eqb option_map fst snd].
  rewrite M1, H1. change (93 :: 91 :: b) with ([93] ++ 91 :: b). rewrite app_assoc, cap_str_app. split; [reflexivity|].
  rewrite <- (app_nil_r (91 :: b)) at 1. rewrite cap_str_app. reflexivity.
Qed.
Lemma end_some q h : captures (rx_re LINK_URL_END_RE) q = Some h ->
  exists a b, q = (a ++ [93]) ++ b /\ cap_opt 1 h = Some (a ++ [93]) /\ cap_opt 2 h = Some b.
Proof.
  intros H. apply captures_some in H as (w & v & s & -> & H & ->). apply match_at_sound in H. rewrite end_shape in H.
  apply mat_seq in H as (s1 & H1 & H). apply mat_group in H1 as (s2 & H1 & ->).
  apply mat_seq in H1 as (s3 & H2 & H1). apply mat_assert in H2 as [-> H2]. cbn [m_before m_after] in H2.
  assert (w = []) as -> by (eapply sot_nil; eauto). clear H2.
  apply mat_seq in H1 as (s4 & H2 & H1). apply mat_star_cls in H2 as (a & [M1 _] & _ & Hc).
  apply mat_cls in H1 as (x & rest & H1 & Hx & ->). rewrite in_one in Hx. apply N.eqb_eq in Hx. subst x.
  apply mat_seq in H as (s5 & H2 & H). apply mat_nlook in H2. subst s5.
  apply mat_seq in H as (s5 & H2 & H). apply mat_group in H2 as (s6 & H2 & ->). apply mat_assert in H as [-> He].
  apply mat_star_cls in H2 as (b & [M2 _] & _ & Hc2). cbn [m_after m_before m_caps step] in *.
  destruct (m_after s6) as [|? ?] eqn:E; [|discriminate]. rewrite app_nil_r in M2. subst rest. exists a, b.
  rewrite M1, H1. split; [rewrite <- app_assoc; reflexivity|].
  unfold cap_opt, cap_text, mk_hit_of. cbn [h_caps m_caps]. cbn [find_cap Nat.eqb option_map]. rewrite Hc2. cbn [find_cap Nat.eqb option_map fst snd].
  rewrite M1, H1. change (93 :: b) with ([93] ++ b). rewrite app_assoc, cap_str_app. split; [reflexivity|].
  rewrite <- (app_nil_r b) at 1. rewrite cap_str_app. reflexivity.
Qed.
Lemma cut_brackets_split url url1 tight : cut_brackets url = (url1, tight) ->
  url = url1 ++ tight /\ (tight = [] \/ exists q, url1 = q ++ [93]).
Proof.
  unfold cut_brackets. destruct (Nat.ltb 0 (count_char 93 url)); [|intros H; inversion H; subst; rewrite app_nil_r; auto].
  assert (exists v t, match captures (rx_re LINK_URL_TIGHT_RE) url with Some h => (cap_or 1 h, cap_or 2 h) | None => (url, []) end = (v, t)
    /\ url = v ++ t /\ (t = [] \/ exists q, v = q ++ [93])) as (v & t & -> & -> & Ht).
  { destruct (captures (rx_re LINK_URL_TIGHT_RE) url) as [h|] eqn:E.
    - apply tight_some in E as (a & b & -> & E1 & E2). unfold cap_or. rewrite E1, E2. do 2 eexists. split; [reflexivity|]. split; eauto.
    - exists url, []. rewrite app_nil_r. auto. }
  destruct (captures (rx_re LINK_URL_END_RE) v) as [h|] eqn:E.
  - apply end_some in E as (a & b & -> & E1 & E2). unfold cap_or. rewrite E1, E2. intros H; inversion H; subst. rewrite <- app_assoc. split; eauto.
  - intros H; inversion H; subst. auto.
Qed.

(** ** The loop over the end of a URL *)
Lemma count_app c a b : count_char c (a ++ b) = (count_char c a + count_char c b)%nat.
Proof. unfold count_char. rewrite filter_app, app_length. reflexivity. Qed.
Lemma count_one c d : count_char c [d] = if c =? d then 1%nat else O.
Proof. unfold count_char. cbn [filter]. destruct (c =? d); reflexivity. Qed.
Lemma count_none c w : ~ In c w -> count_char c w = O.
Proof.
  induction w as [|x w IH]; intros H; [reflexivity|]. change (x :: w) with ([x] ++ w). rewrite count_app, count_one, IH.
  - destruct (N.eqb_spec c x); [subst; exfalso; apply H; left; auto|reflexivity].
  - intros Hin. apply H. right; auto.
Qed.
Lemma stop_punct_mark c : stop_punct c = true <-> sentence_mark c.
Proof. apply contains_char_in. Qed.
Lemma tag_count c name : lower_name name -> ~ In c (u "</>") -> ~ 97 <= c <= 122 -> count_char c (u "</" ++ name ++ u ">") = O.
Proof.
  intros [_ Hn] Hc Hr. apply count_none. rewrite !in_app_iff. intros [H|[H|H]].
  - apply Hc. revert H. lits. cbn [In]. intuition.
  - rewrite Forall_forall in Hn. apply Hn in H. auto.
  - apply Hc. revert H. lits. cbn [In]. intuition.
Qed.
Definition parens_known (url r : str) (c d : option N) : Prop :=
  (c = None /\ d = None) \/ (c = Some (N.of_nat (count_char 40 url)) /\ d = Some (N.of_nat (count_char 41 r))).
Lemma rev_last {A} (l : list A) c rest : rev l = c :: rest -> l = rev rest ++ [c].
Proof. intros H. rewrite <- (rev_involutive l), H. reflexivity. Qed.
Lemma not93 {A} (x : N) (a b : A) : x <> 93 -> match x with 93 => a | _ => b end = b.
Proof. intros H. repeat (destruct x as [|x] || destruct x as [x|x|]; try reflexivity); congruence. Qed.
Lemma square_counts {X} url a b c d (k : counter -> M X) s : a = None \/ a = Some (N.of_nat (count_char 91 url)) ->
  bind (cc_get 91 [(91, a); (93, b); (40, c); (41, d)])
    (fun o => bind (match o with None => cc_set 91 (Some (N.of_nat (count_char 91 url))) [(91, a); (93, b); (40, c); (41, d)]
                               | Some _ => ret [(91, a); (93, b); (40, c); (41, d)] end) k) s
  = k [(91, Some (N.of_nat (count_char 91 url))); (93, b); (40, c); (41, d)] s.
Proof. intros [-> | ->]; reflexivity. Qed.
Lemma paren_counts {X} url r a b c d (k : counter -> M X) s : parens_known url r c d -> (d = None -> count_char 41 r = count_char 41 url) ->
  bind (cc_get 41 [(91, a); (93, b); (40, c); (41, d)])
    (fun o => bind (match o with None => bind (cc_set 40 (Some (N.of_nat (count_char 40 url))) [(91, a); (93, b); (40, c); (41, d)])
                                           (fun k => cc_set 41 (Some (N.of_nat (count_char 41 url))) k)
                               | Some _ => ret [(91, a); (93, b); (40, c); (41, d)] end) k) s
  = k [(91, a); (93, b); (40, Some (N.of_nat (count_char 40 url))); (41, Some (N.of_nat (count_char 41 r)))] s.
Proof. intros [[-> ->]|[-> ->]] H; [rewrite H by auto|]; reflexivity. Qed.
Section Four.
  Context {X : Type} (a b c d : option N) (s : pstate).
  Let K := [(91, a); (93, b); (40, c); (41, d)].
  Lemma get_91 (k : option N -> M X) : bind (cc_get 91 K) k s = k a s. Proof. reflexivity. Qed.
  Lemma get_93 (k : option N -> M X) : bind (cc_get 93 K) k s = k b s. Proof. reflexivity. Qed.
  Lemma get_40 (k : option N -> M X) : bind (cc_get 40 K) k s = k c s. Proof. reflexivity. Qed.
  Lemma get_41 (k : option N -> M X) : bind (cc_get 41 K) k s = k d s. Proof. reflexivity. Qed.
End Four.
Lemma dec_some n : (if 0 <? N.of_nat (S n) then N.of_nat (S n) - 1 else 0) = N.of_nat n.
Proof. destruct (N.ltb_spec 0 (N.of_nat (S n))); lia. Qed.
Lemma dec_93 {X} a n c d (k : counter -> M X) s :
  bind (cc_dec 93 [(91, a); (93, Some (N.of_nat (S n))); (40, c); (41, d)]) k s = k [(91, a); (93, Some (N.of_nat n)); (40, c); (41, d)] s.
Proof. rewrite <- (dec_some n). reflexivity. Qed.
Lemma dec_41 {X} a b c n (k : counter -> M X) s :
  bind (cc_dec 41 [(91, a); (93, b); (40, c); (41, Some (N.of_nat (S n)))]) k s = k [(91, a); (93, b); (40, c); (41, Some (N.of_nat n))] s.
Proof. rewrite <- (dec_some n). reflexivity. Qed.
Lemma trim_spec tight url : forall n r pop pre a c d (first : bool) s,
  (List.length r < n)%nat -> ~ In 10 r ->
  count_char 91 r = count_char 91 url -> count_char 40 r = count_char 40 url ->
  (d = None -> r = url \/ count_char 41 r = count_char 41 url) ->
  (a = None \/ a = Some (N.of_nat (count_char 91 url))) -> parens_known url r c d ->
  exists kept p, trim_url n url (rev r) pop pre [(91, a); (93, Some (N.of_nat (count_char 93 (r ++ tight)))); (40, c); (41, d)] first s
    = Ret (rev kept, p ++ pop, if first && match rev r with 93 :: _ => negb (Nat.eqb (count_char 91 r) (count_char 93 (r ++ tight))) | _ => false end then [] else pre) s
    /\ cut_end tight r kept p.
Proof.
  induction n as [|n IH]; intros r pop pre a c d first s Hn Hnl H1 H2 H3 Ha Hp; [lia|].
  cbn [trim_url]. destruct (rev r) as [|x rest] eqn:Er.
  - exists [], []. assert (r = []) as -> by (rewrite <- (rev_involutive r), Er; reflexivity).
    rewrite andb_false_r. cbn. split; [reflexivity|constructor].
  - apply rev_last in Er. set (q := rev rest) in *. assert (rest = rev q) as Erest by (unfold q; rewrite rev_involutive; reflexivity). subst r. clearbody q. subst rest.
    assert (List.length q < n)%nat as Hq by (rewrite app_length in Hn; cbn in Hn; lia).
    assert (~ In 10 q) as Hnlq by (intros Hin; apply Hnl, in_or_app; auto).
    destruct (stop_punct x) eqn:Ex.
    + apply stop_punct_mark in Ex.
      assert (x <> 91 /\ x <> 93 /\ x <> 40 /\ x <> 41) as (N1 & N2 & N3 & N4).
      { unfold sentence_mark in Ex. lits_in Ex. cbn [In] in Ex. lia. }
      apply N.eqb_neq in N1. apply N.eqb_neq in N2. apply N.eqb_neq in N3. apply N.eqb_neq in N4.
      assert (forall e, (x =? e) = false -> count_char e (q ++ [x]) = count_char e q) as Hce.
      { intros e He. rewrite count_app, count_one, N.eqb_sym, He. lia. }
      assert (count_char 93 ((q ++ [x]) ++ tight) = count_char 93 (q ++ tight)) as Hc93 by (rewrite !count_app, count_one, N.eqb_sym, N2; lia).
      rewrite Hc93.
      destruct (IH q (x :: pop) pre a c d false s) as (kept & p & E & Hcut); auto; try (rewrite <- Hce; auto; fail).
      { intros Hd. right. destruct (H3 Hd) as [<- |Hh]; rewrite Hce in *; auto. }
      { unfold parens_known in *. rewrite Hce in Hp; auto. }
      exists kept, (p ++ [x]). rewrite E. cbn [andb]. split.
      * replace (match x with 93 => _ | _ => _ end) with false; [rewrite andb_false_r, <- app_assoc; reflexivity|].
        apply N.eqb_neq in N2. symmetry. apply not93. exact N2.
      * constructor; auto.
    + assert (~ sentence_mark x) as Hns by (intros Hs; apply stop_punct_mark in Hs; congruence).
      destruct (N.eqb_spec x 62).
      * subst x. 
        destruct (captures (rx_re LINK_CLOSE_TAG_RE) q) as [h|] eqn:Eh.
        -- apply close_tag_some in Eh as (q' & name & -> & Hname & E1 & E2).
           unfold capx. unfold cap_opt in E1, E2. unfold of_opt. rewrite E1, E2. unfold bind, ret.
           assert (forall e, ~ In e (u "</>") -> ~ 97 <= e <= 122 -> count_char e ((q' ++ u "</" ++ name) ++ [62]) = count_char e q') as Hce.
           { intros e He1 He2. rewrite <- !app_assoc. rewrite count_app. change [62] with (u ">"). rewrite tag_count; auto. }
           assert (forall e, e = 91 \/ e = 93 \/ e = 40 \/ e = 41 -> count_char e ((q' ++ u "</" ++ name) ++ [62]) = count_char e q') as Hcb.
           { intros e He. apply Hce; [lits; cbn [In]; lia|lia]. }
           assert (count_char 93 (((q' ++ u "</" ++ name) ++ [62]) ++ tight) = count_char 93 (q' ++ tight)) as Hc93 by (rewrite count_app, Hcb, count_app by tauto; reflexivity).
           rewrite Hc93.
           destruct (IH q' (((u "</" ++ name) ++ [62]) ++ pop) pre a c d false s) as (kept & p & E & Hcut).
           { rewrite app_length in Hq. lia. }
           { intros Hin. apply Hnlq, in_or_app; auto. }
           { rewrite <- H1. symmetry. apply Hcb; tauto. }
           { rewrite <- H2. symmetry. apply Hcb; tauto. }
           { intros Hd. right. destruct (H3 Hd) as [<- |Hh]; [symmetry; apply Hcb; tauto|rewrite <- Hh; symmetry; apply Hcb; tauto]. }
           { auto. }
           { unfold parens_known in *. rewrite Hcb in Hp by tauto. exact Hp. }
           exists kept, (p ++ (u "</" ++ name) ++ [62]). cbn [app] in E |- *. rewrite <- !app_assoc in E |- *. cbn [app] in E |- *.
           rewrite E. rewrite andb_false_r. cbn [andb]. split; [rewrite <- !app_assoc; reflexivity|]. rewrite <- !app_assoc. change [62] with (u ">"). rewrite <- ?app_assoc. apply cut_tag; auto.
        -- exists q, []. rewrite andb_false_r. split; [reflexivity|]. apply cut_gt. apply close_tag_none; auto.
      * destruct (N.eqb_spec x 93).
        -- subst x.
           rewrite square_counts by auto. rewrite get_91, get_93.
           assert (count_char 91 (q ++ [93]) = count_char 91 url) as H1' by auto.
           destruct (N.eqb_spec (N.of_nat (count_char 91 url)) (N.of_nat (count_char 93 ((q ++ [93]) ++ tight)))) as [Hb|Hb].
           ++ apply Nat2N.inj in Hb. exists (q ++ [93]), []. rewrite rev_app_distr. cbn [rev app].
              rewrite H1', Hb, Nat.eqb_refl. cbn [negb]. rewrite andb_false_r. split; [reflexivity|]. constructor; auto; try discriminate.
              intros _. unfold squares_balanced. congruence.
           ++ assert (~ squares_balanced tight (q ++ [93])) as Hub by (unfold squares_balanced; intros He; apply Hb; rewrite <- He, H1'; reflexivity).
              assert (count_char 93 ((q ++ [93]) ++ tight) = S (count_char 93 (q ++ tight))) as Hc93 by (rewrite !count_app, count_one; cbn; lia).
              rewrite Hc93, dec_93.
              destruct (IH q pop (if first then [] else pre) (Some (N.of_nat (count_char 91 url))) c d false s) as (kept & p & E & Hcut); auto.
              { rewrite <- H1, count_app, count_one. cbn. lia. }
              { rewrite <- H2, count_app, count_one. cbn. lia. }
              { intros Hd. right. destruct (H3 Hd) as [<- |Hh]; [|rewrite <- Hh]; rewrite count_app, count_one; cbn; lia. }
              { unfold parens_known in *. rewrite count_app, count_one in Hp. cbn in Hp. rewrite Nat.add_0_r in Hp. exact Hp. }
              exists kept, p. rewrite E. cbn [andb]. rewrite H1'.
              replace (Nat.eqb (count_char 91 url) (S (count_char 93 (q ++ tight)))) with false by (symmetry; apply Nat.eqb_neq; lia).
              cbn [negb]. rewrite andb_true_r. split; [reflexivity|]. apply cut_square; auto.
        -- destruct (N.eqb_spec x 41).
           ++ subst x. rewrite andb_false_r.
              assert (count_char 40 (q ++ [41]) = count_char 40 url) as H2' by auto.
              rewrite (paren_counts url (q ++ [41])) by (auto; intros Hd; destruct (H3 Hd) as [<- |]; auto). rewrite get_40, get_41.
              destruct (N.eqb_spec (N.of_nat (count_char 40 url)) (N.of_nat (count_char 41 (q ++ [41])))) as [Hb|Hb].
              ** apply Nat2N.inj in Hb. exists (q ++ [41]), []. rewrite rev_app_distr. cbn [rev app]. split; [reflexivity|]. constructor; auto; try discriminate.
                 intros _. unfold parens_balanced. congruence.
              ** assert (~ parens_balanced (q ++ [41])) as Hub by (unfold parens_balanced; intros He; apply Hb; rewrite <- He, H2'; reflexivity).
                 assert (count_char 41 (q ++ [41]) = S (count_char 41 q)) as Hc41 by (rewrite count_app, count_one; cbn; lia).
                 rewrite Hc41, dec_41.
                 assert (count_char 93 ((q ++ [41]) ++ tight) = count_char 93 (q ++ tight)) as -> by (rewrite !count_app, count_one; cbn; lia).
                 destruct (IH q (41 :: pop) pre a (Some (N.of_nat (count_char 40 url))) (Some (N.of_nat (count_char 41 q))) false s) as (kept & p & E & Hcut); auto.
                 { rewrite <- H1, count_app, count_one. cbn. lia. }
                 { rewrite <- H2, count_app, count_one. cbn. lia. }
                 { discriminate. }
                 { right. auto. }
                 exists kept, (p ++ [41]). rewrite E. cbn [andb]. rewrite <- app_assoc. split; [reflexivity|]. apply cut_paren; auto.
           ++ exists (q ++ [x]), []. rewrite rev_app_distr. cbn [rev app]. split.
              ** replace (match x with 93 => _ | _ => _ end) with false; [rewrite andb_false_r; reflexivity|].
                 symmetry. apply not93. assumption.
              ** constructor; auto; congruence.
Qed.

(** ** One marked link *)
Definition stop_cls := mk_cls true [CProp false PSpace; CRange 124 124; CRange 94 94; CRange 39 39; CRange 34 34; CRange 42 42].
Lemma in_stop c : in_cls stop_cls c = negb (url_stop c).
Proof.
  unfold in_cls, stop_cls, url_stop. cbn [c_neg c_items existsb in_item has_prop]. rewrite !xorb_true_l. f_equal.
  rewrite xorb_false_l. f_equal. unfold contains_char. lits. cbn [existsb].
  assert (forall a, ((a <=? c) && (c <=? a)) = (c =? a)) as H.
  { intros a. destruct (N.eqb_spec c a); [subst; rewrite N.leb_refl; auto|]. destruct (N.leb_spec a c), (N.leb_spec c a); auto; lia. }
  rewrite ?H. reflexivity.
Qed.
Definition any_re := RAlt (RCls (mk_cls true [CRange 10 10])) (RCls (mk_cls false [CRange 10 10])).
Lemma link_shape uid x : uid_plain uid = true -> link_re uid = Some x ->
  rx_re x = RSeq (RAlt (RGroup 1 (RCls (one 91))) REps)
    (lit_then (needle uid) (RSeq (RCls (one 34)) (RSeq (RGroup 2 (RStar false any_re))
      (RSeq (RCls (one 34)) (RSeq (RCls (one 58)) (RGroup 3 (RStar true (RCls stop_cls)))))))).
Proof. intros Hp. unfold link_re. rewrite Hp. intros H. inversion H. reflexivity. Qed.
Lemma mat_lit r : forall w s s', Mat (lit_then w r) s s' -> exists s1, moved s w s1 /\ m_caps s1 = m_caps s /\ Mat r s1 s'.
Proof.
  induction w as [|c w IH]; intros s s' H; cbn [lit_then] in H.
  - exists s. repeat split; auto.
  - change (cls_of [RegexParse.one c]) with (one c) in H. apply mat_seq in H as (s1 & H1 & H). apply mat_cls in H1 as (x & rest & H1 & Hx & ->). rewrite in_one in Hx. apply N.eqb_eq in Hx. subst x.
    apply IH in H as (s2 & M & Hc & H). exists s2. split; [|auto]. change (c :: w) with ([c] ++ w). eapply moved_trans; [apply moved_step; eauto|exact M].
Qed.
Lemma mat_caps_star r s s' : (forall a b, Mat r a b -> m_caps b = m_caps a) -> forall g, Mat (RStar g r) s s' -> m_caps s' = m_caps s.
Proof.
  intros Hr g H. remember (RStar g r) as R eqn:E. induction H; inversion E; subst; auto. rewrite IHMat2 by auto. apply Hr. auto.
Qed.
Lemma link_hit uid x h : uid_plain uid = true -> link_re uid = Some x -> hit_of (rx_re x) h ->
  exists pre inner url, h_text h = marked_link uid pre inner url /\ cap_or 1 h = pre /\ cap_text 2 (h_caps h) = Some inner /\
  cap_text 3 (h_caps h) = Some url /\ (pre = [] \/ pre = [91]) /\ Forall (fun c => url_stop c = false) url.
Proof.
  intros Hp Hx (before & after & s & Hh & ->). rewrite (link_shape _ _ Hp Hx) in Hh. apply match_at_sound in Hh.
  apply mat_seq in Hh as (s1 & H1 & Hh). apply mat_lit in Hh as (s2 & M2 & C2 & Hh).
  apply mat_seq in Hh as (s3 & H3 & Hh). apply mat_cls in H3 as (q & rest & E3 & Hq & ->). rewrite in_one in Hq. apply N.eqb_eq in Hq. subst q.
  apply mat_seq in Hh as (s4 & H4 & Hh). apply mat_group in H4 as (s5 & H4 & ->).
  assert (m_caps s5 = m_caps s2) as C5.
  { eapply mat_caps_star in H4; [exact H4|]. intros a b Hab. inversion Hab; subst; match goal with H : Mat (RCls _) _ _ |- _ => apply mat_cls in H as (? & ? & ? & ? & ->) end; reflexivity. }
  apply Mat_word in H4 as (inner & M4 & _).
  apply mat_seq in Hh as (s6 & H6 & Hh). apply mat_cls in H6 as (q & rest6 & E6 & Hq & ->). rewrite in_one in Hq. apply N.eqb_eq in Hq. subst q.
  apply mat_seq in Hh as (s7 & H7 & Hh). apply mat_cls in H7 as (q & rest7 & E7 & Hq & ->). rewrite in_one in Hq. apply N.eqb_eq in Hq. subst q.
  apply mat_group in Hh as (s8 & H8 & ->). apply mat_star_cls in H8 as (url & M8 & Hu & C8).
  assert (exists pre, moved (mk_mst before after []) pre s1 /\ (pre = [] /\ m_caps s1 = [] \/ pre = [91] /\ exists v, m_caps s1 = [(1%nat, (after, v))] /\ cap_str (after, v) = [91])) as (pre & M1 & Hpre).
  { inversion H1; subst.
    - match goal with H : Mat (RGroup _ _) _ _ |- _ => apply mat_group in H as (s0 & H & ->); apply mat_cls in H as (q & rest0 & E0 & Hq & ->) end.
      rewrite in_one in Hq. apply N.eqb_eq in Hq. subst q. exists [91]. cbn [m_after m_before m_caps step] in *. split; [split; [exact E0|reflexivity]|].
      right. split; [auto|]. eexists. split; [reflexivity|]. rewrite E0. apply (cap_str_app [91] rest0).
    - match goal with H : Mat REps _ _ |- _ => inversion H; subst end. exists []. split; [split; reflexivity|]. left. auto. }
  exists pre, inner, url. cbn [m_after m_before m_caps step] in *.
  assert (after = marked_link uid pre inner url ++ m_after s8) as Ha.
  { destruct M1 as [M1 _], M2 as [M2 _], M4 as [M4 _], M8 as [M8 _]. cbn [m_after step] in *.
    rewrite M1, M2, E3, M4, E6, E7, M8. unfold marked_link, needle. rewrite <- !app_assoc. lits. reflexivity. }
  split; [|split; [|split; [|split; [|split]]]].
  - unfold mk_hit_of. cbn [h_text m_after]. rewrite Ha. apply (cap_str_app (marked_link uid pre inner url) (m_after s8)).
  - unfold cap_or, cap_opt, cap_text, mk_hit_of. cbn [h_caps m_caps find_cap Nat.eqb option_map]. rewrite C8. cbn [find_cap Nat.eqb]. rewrite C5, C2.
    destruct Hpre as [[-> ->]|[-> (v & -> & Hv)]]; [reflexivity|]. cbn [find_cap Nat.eqb option_map]. exact Hv.
  - unfold cap_text, mk_hit_of. cbn [h_caps m_caps find_cap Nat.eqb option_map]. rewrite C8. cbn [find_cap Nat.eqb option_map]. f_equal.
    destruct M4 as [M4 _]. cbn [m_after step] in M4. rewrite M4. apply cap_str_app.
  - unfold cap_text, mk_hit_of. cbn [h_caps m_caps find_cap Nat.eqb option_map]. f_equal. destruct M8 as [M8 _]. cbn [m_after step] in M8. rewrite M8. apply cap_str_app.
  - destruct Hpre as [[-> _]|[-> _]]; auto.
  - apply Forall_forall. intros c Hc. rewrite forallb_forall in Hu. apply Hu in Hc. rewrite in_stop in Hc. apply negb_true_iff in Hc. exact Hc.
Qed.

#[local] Existing Instance everything.
Lemma stateless_ret {A} T (m : M A) s a s' : stateless T m -> m s = Ret a s' -> s' = s.
Proof. intros [[b H]|[[p [_ H]]|H]] E; rewrite H in E; congruence. Qed.
Lemma assocN_nm {A} k (v : A) : forall l, assocN k (nm_insert k v l) = Some v.
Proof. induction l as [|[k' v'] l IH]; cbn [nm_insert assocN]; [rewrite N.eqb_refl; auto|]. destruct (k' =? k) eqn:E; cbn [assocN]; [rewrite N.eqb_refl|rewrite E]; auto. Qed.
Lemma assoc_filter {A} (p : str -> bool) k : p k = true -> forall (l : list (str * A)), assoc k (filter (fun a => p (fst a)) l) = assoc k l.
Proof.
  intros Hp. induction l as [|[k' v'] l IH]; [reflexivity|]. cbn [filter fst]. destruct (p k') eqn:E; cbn [assoc]; [rewrite IH; auto|].
  destruct (seqb k' k) eqn:Ek; [apply seqb_eq in Ek; congruence|auto].
Qed.
Lemma generate_a text attrs : exists l, generate_tag (u "a") (Some text) attrs = a_tag l text /\
  forall k, forallb is_valid_attribute_char k = true -> assoc k l = assoc k attrs.
Proof.
  exists (filter (fun a => forallb is_valid_attribute_char (fst a)) attrs). split.
  - unfold generate_tag, a_tag, join_html_attributes. replace (is_empty (u "a")) with false by reflexivity.
    replace (negb (forallb is_alphanumeric (u "a"))) with false by reflexivity. unfold attr_str. rewrite <- !app_assoc. reflexivity.
  - intros k Hk. apply (assoc_filter (forallb is_valid_attribute_char)). exact Hk.
Qed.
Lemma scheme_ok_iff T x : is_empty (url_scheme x) || scheme_allowed T (url_scheme x) = true <-> scheme_ok T x.
Proof.
  unfold scheme_ok, scheme_allowed. rewrite orb_true_iff, in_list_in. change (allowed_schemes T) with (schemes (t_restricted T)). destruct (url_scheme x); cbn [is_empty]; intuition congruence.
Qed.
Lemma cut_pre tight url1 pre : pre_after tight url1 pre
  (if true && match rev url1 with 93 :: _ => negb (Nat.eqb (count_char 91 url1) (count_char 93 (url1 ++ tight))) | _ => false end then [] else pre).
Proof.
  cbn [andb]. destruct (rev url1) as [|x r] eqn:E.
  - right. split; [|auto]. intros (q & -> & _). rewrite rev_app_distr in E. discriminate.
  - destruct (N.eq_dec x 93) as [->|Hx].
    + apply rev_last in E. destruct (Nat.eqb_spec (count_char 91 url1) (count_char 93 (url1 ++ tight))) as [Hc|Hc]; cbn [negb].
      * right. split; [|auto]. intros (q & _ & Hn). apply Hn. exact Hc.
      * left. split; [|auto]. exists (rev r). auto.
    + rewrite not93 by auto. right. split; [|auto]. intros (q & -> & _). rewrite rev_app_distr in E. cbn in E. congruence.
Qed.
Lemma link_outcome W T x h s out s' : uid_plain (t_uid T) = true -> link_re (t_uid T) = Some x -> hit_of (rx_re x) h ->
  f_link W T h s = Ret out s' ->
  exists pre inner url, h_text h = marked_link (t_uid T) pre inner url /\ (pre = [] \/ pre = [91]) /\
    Forall (fun c => url_stop c = false) url /\ link_out W T pre inner url s out s'.
Proof.
  intros Hp Hx Hh H. destruct (link_hit _ _ _ Hp Hx Hh) as (pre & inner & url & Ht & E1 & E2 & E3 & Hpre & Hurl).
  exists pre, inner, url. split; [auto|]. split; [auto|]. split; [auto|].
  assert (~ In 10 url) as Hnl. { intros Hin. rewrite Forall_forall in Hurl. apply Hurl in Hin. discriminate. }
  unfold f_link in H. rewrite E1 in H. apply bind_inv in H as (i0 & s1 & H1 & H). unfold capx in H1. rewrite E2 in H1. inversion H1; subst i0 s1. clear H1.
  apply bind_inv in H as (i0 & s1 & H1 & H). unfold capx in H1. rewrite E3 in H1. inversion H1; subst i0 s1. clear H1.
  assert (is_empty (replace_char inner 10 (br_tag T)) = is_empty inner) as Hemp.
  { destruct inner as [|c inner]; [reflexivity|]. unfold replace_char. cbn [flat_map]. destruct (c =? 10); [|reflexivity]. unfold br_tag. destruct (t_html T); reflexivity. }
  rewrite Hemp in H. destruct inner as [|c0 inner0] eqn:Einner.
  { cbn [is_empty] in H. apply lo_empty; auto; [|inversion H; auto]. inversion H. cbn. lits. reflexivity. }
  rewrite <- Einner in *. replace (is_empty inner) with false in H by (subst; reflexivity). assert (inner <> []) as Hne by (subst; discriminate). clear Hemp Einner c0 inner0.
  generalize dependent (replace_char inner 10 (br_tag T)). intros inner' H.
  destruct (match captures (rx_re LINK_BLOCK_RE) inner' with Some m => _ | None => _ end) as [[atts text] title].
  destruct (cut_brackets url) as [url1 tight] eqn:Ecut. apply cut_brackets_split in Ecut as [Eurl Htight].
  apply bind_inv in H as (counts & s1 & H1 & H). inversion H1; subst counts s1. clear H1.
  replace (count_char 93 url) with (count_char 93 (url1 ++ tight)) in H by congruence.
  destruct (trim_spec tight url1 (S (List.length url1)) url1 [] pre None None None true s) as (kept & p & Etrim & Hcut); auto; try lia.
  { intros Hin. apply Hnl. rewrite Eurl. apply in_or_app; auto. }
  { left. auto. }
  match type of Etrim with _ = Ret (_, _, ?e) _ => assert (pre_after tight url1 pre e) as Hpa by exact (cut_pre tight url1 pre); revert Etrim Hpa; generalize e end.
  intros pre' Etrim Hpa.
  apply bind_inv in H as (r & s1 & H1 & H). change (cc_new [91; 93; 40; 41]) with [(91, @None N); (93, None); (40, None); (41, None)] in H1. rewrite Etrim in H1. clear Etrim. inversion H1; subst r s1. clear H1.
  rewrite app_nil_r, rev_involutive in H.
  assert (url_cut url kept (p ++ tight) pre pre') as HC by (exists url1, tight, p; auto).
  apply bind_inv in H as (full & s1 & H1 & H). assert (s1 = s) by (eapply stateless_ret; [apply sl_unrestrict|eauto]). subst s1.
  destruct (is_empty (url_scheme (url_parse W full)) || scheme_allowed T (url_scheme (url_parse W full))) eqn:Evalid; cbn [negb] in H.
  2:{ eapply lo_refused; eauto; [|inversion H; auto|inversion H; auto].
      - intros Hok. apply scheme_ok_iff in Hok. congruence.
      - rewrite Ht. reflexivity. }
  apply scheme_ok_iff in Evalid.
  apply bind_inv in H as (t1 & s1 & _ & H). apply bind_inv in H as (t2 & s2 & _ & H). apply bind_inv in H as (t3 & s3 & _ & H). apply bind_inv in H as (t4 & s4 & _ & H).
  apply bind_inv in H as (url_id & s5 & H5 & H). rewrite shelve_url_eq in H5. inversion H5; subst url_id s5; clear H5.
  apply bind_inv in H as (ba & s6 & H6 & H). apply (stateless_ret T) in H6; [|apply sl_ba]. subst s6.
  apply bind_inv in H as (attrs & s7 & H7 & H). apply bind_inv in H as (aid & s8 & H8 & H). inversion H; subst out s8; clear H.
  rewrite shelve_eq in H8. inversion H8; subst aid s'; clear H8.
  eapply lo_linked with (token := t_uid T ++ dec (ps_ref_index s7 + 1) ++ u ":shelve"); eauto; [eexists; reflexivity|].
  set (i := ps_ref_index s4 + 1) in *.
  assert (assoc (u "href") attrs = Some (t_uid T ++ dec i ++ u ":url") /\ assocN i (ps_ref_cache s7) = Some (encode_html (url_to_string (url_parse W full)) true true)) as [Ha Hc].
  { rewrite if_app in H7. destruct (is_empty (encode_html title false false)).
    - inversion H7; subst. split; [apply assoc_bt|]. cbn [ps_ref_cache set_ref_cache]. rewrite assocN_nm. reflexivity.
    - unfold bind in H7. rewrite shelve_eq in H7. inversion H7; subst. split.
      + unfold attr_insert. rewrite assoc_bt_other, assoc_bt by discriminate. reflexivity.
      + cbn [ps_ref_cache set_ref_cache set_shelf set_ref_index]. rewrite assocN_nm. reflexivity. }
  destruct (generate_a t4 (match t_rel T with Some rel => attr_insert (u "rel") rel attrs | None => attrs end)) as (l & El & Hl).
  exists i, l, t4. split; [|split; [|split]].
  - cbn [ps_shelf set_shelf]. etransitivity; [apply assoc_im|]. f_equal. exact El.
  - rewrite Hl by reflexivity. destruct (t_rel T); [|exact Ha]. unfold attr_insert. rewrite assoc_bt_other by discriminate. exact Ha.
  - exact Hc.
  - intros rel Hrel. rewrite Hl by reflexivity. rewrite Hrel. apply assoc_bt.
Qed.

(** ** Marking *)
Lemma join_two sep x y l : join sep (x :: y :: l) = x ++ sep ++ join sep (y :: l).
Proof. reflexivity. Qed.
Lemma join_app sep a : forall b, a <> [] -> b <> [] -> join sep (a ++ b) = join sep a ++ sep ++ join sep b.
Proof.
  induction a as [|x a IH]; intros b Ha Hb; [congruence|]. destruct a as [|y a].
  - destruct b; [congruence|reflexivity].
  - change ((x :: y :: a) ++ b) with (x :: (y :: a) ++ b). cbn [app]. rewrite !join_two. rewrite <- !app_assoc. f_equal. f_equal. apply IH; [discriminate|auto].
Qed.
Lemma split_join c : forall s, join [c] (split_char c s) = s.
Proof.
  induction s as [|x s IH]; [reflexivity|]. cbn [split_char]. destruct (N.eqb_spec x c) as [->|n].
  - destruct (split_char c s) as [|p ps] eqn:E; [exfalso; eapply split_char_nonempty; eauto|]. rewrite join_two. cbn [app]. rewrite IH. reflexivity.
  - destruct (split_char c s) as [|p ps] eqn:E; [exfalso; eapply split_char_nonempty; eauto|]. destruct ps; cbn [join app] in *; rewrite <- IH; reflexivity.
Qed.
Lemma split_in c : forall s, In c s -> exists p q l, split_char c s = p :: q :: l /\ ~ In c p.
Proof.
  induction s as [|x s IH]; intros H; [destruct H|]. cbn [split_char]. destruct (N.eqb_spec x c) as [->|n].
  - destruct (split_char c s) as [|q l] eqn:E; [exfalso; eapply split_char_nonempty; eauto|]. exists [], q, l. split; [auto|intros []].
  - destruct IH as (p & q & l & -> & Hp); [destruct H; [congruence|auto]|]. exists (x :: p), q, l. split; [auto|]. intros [->|]; congruence.
Qed.
Lemma split_no c s p : In p (split_char c s) -> ~ In c p.
Proof.
  revert p. induction s as [|x s IH]; intros p; cbn [split_char]; [intros [<-|[]] []|].
  destruct (N.eqb_spec x c) as [->|n].
  - intros [<-|H]; [intros []|auto].
  - destruct (split_char c s) as [|q l]; [intros [<-|[]] [->|[]]; congruence|]. intros [<-|H]; [intros [->|Hin]; [congruence|revert Hin; apply IH; left; auto]|apply IH; right; auto].
Qed.
Lemma mark_loop_keeps p0 L : forall n quotes poss parts balanced first k s q' parts' s',
  rev quotes ++ poss :: parts = repeat p0 k ++ p0 :: L -> (p0 = [] -> k = O) ->
  mark_loop n quotes poss parts balanced first s = Ret (q', parts') s' ->
  s' = s /\ exists k', (p0 = [] -> k' = O) /\ (rev q' ++ parts' = repeat p0 k' ++ p0 :: L /\ q' <> [] /\ parts' <> [] \/
    q' = [] /\ p0 = [] /\ parts' = L).
Proof.
  induction n as [|n IH]; intros quotes poss parts balanced first k s q' parts' s' Hinv Hk H; [discriminate|].
  cbn [mark_loop] in H. destruct poss as [|c poss]; cbn [is_empty negb] in H.
  - destruct quotes as [|p q].
    + inversion H; subst. split; [auto|]. exists k. split; [auto|]. right. split; [auto|]. cbn [rev app tl] in *.
      destruct k; cbn [repeat app] in Hinv; inversion Hinv; subst; auto. specialize (Hk eq_refl). discriminate.
    + cbn [rev] in Hinv. rewrite <- app_assoc in Hinv. cbn [app] in Hinv.
      revert H. destruct (is_empty p || ends_with (u " ") p); destruct (_ <=? 0)%Z; intros H; try (eapply IH; [exact Hinv|exact Hk|exact H]);
        inversion H; subst; (split; [auto|]); exists k; (split; [auto|]); left; (split; [cbn [rev]; rewrite <- app_assoc; exact Hinv|]); split; discriminate.
  - destruct quotes as [|p q].
    + cbn [rev app] in Hinv.
      assert (c :: poss = p0 /\ (c :: poss) :: (c :: poss) :: parts = repeat p0 (S k) ++ p0 :: L) as [E1 E2].
      { destruct k; cbn [repeat app] in *; inversion Hinv; subst; auto. }
      rewrite E1 in H, E2. revert H. destruct (_ <=? 0)%Z; intros H.
      * inversion H; subst q' parts' s'. split; [auto|]. exists (S k). split; [subst p0; discriminate|]. left. cbn [rev app] in *. split; [exact E2|split; discriminate].
      * eapply IH; [|subst p0; discriminate|exact H]. cbn [rev app]. exact E2.
    + cbn [rev] in Hinv. rewrite <- app_assoc in Hinv. cbn [app] in Hinv. revert H. destruct (_ <=? 0)%Z; intros H.
      * inversion H; subst. split; [auto|]. exists k. split; [auto|]. left. split; [cbn [rev]; rewrite <- app_assoc; exact Hinv|]. split; discriminate.
      * eapply IH; [exact Hinv|exact Hk|exact H].
Qed.
Lemma join_repeat sep p L k : join sep (repeat p k ++ p :: L) = repeat_str (p ++ sep) k ++ join sep (p :: L).
Proof.
  induction k as [|k IH]; [reflexivity|]. cbn [repeat app repeat_str]. rewrite <- app_assoc, <- IH, <- app_assoc. destruct k; reflexivity.
Qed.
Lemma quote_lit : u """" = [34]. Proof. reflexivity. Qed.
Lemma mark_slice_marked T fuel t s out s' : mark_slice T fuel t s = Ret out s' ->
  s' = s /\ marked (t_uid T ++ u "linkStartMarker:") t out.
Proof.
  unfold mark_slice. destruct (contains_char 34 t) eqn:E; cbn [negb].
  2:{ intros H. inversion H; subst. split; [auto|]. left. split; [|auto]. intros Hin. apply contains_char_in in Hin. congruence. }
  apply contains_char_in in E. destruct (split_in _ _ E) as (p & q & l & Es & Hp).
  destruct (rev (split_char 34 t)) as [|poss quotes] eqn:Er; [rewrite Es in Er; apply (f_equal (@List.length str)) in Er; rewrite rev_length in Er; discriminate|].
  intros H. apply bind_inv in H as ([q' parts'] & s1 & H1 & H). apply rev_last in Er.
  destruct (mark_loop_keeps p (q :: l) _ _ _ _ _ _ O _ _ _ _ (eq_trans (eq_sym Er) Es) ltac:(auto) H1) as (-> & k & Hk & Hr).
  inversion H; subst out s'; clear H. split; [auto|]. right. cbn [fst snd].
  pose proof (split_join 34 t) as Hj. rewrite Es, join_two in Hj. cbn [app] in Hj.
  exists p, (join [34] (q :: l)). rewrite quote_lit.
  destruct Hr as [(E1 & E2 & E3)|(-> & -> & ->)].
  - exists k, (join [34] (rev q')), (join [34] parts'). split; [auto|split; [auto|split; [auto|]]]. split.
    + change (u "linkStartMarker:""") with (u "linkStartMarker:" ++ [34]). rewrite <- ?app_assoc. reflexivity.
    + change (34 :: join [34] parts') with ([34] ++ join [34] parts'). rewrite <- join_app; auto; [|intros E0; apply E2; rewrite <- (rev_involutive q'), E0; reflexivity].
      rewrite E1, join_repeat. f_equal. rewrite join_two. exact Hj.
  - exists O, [], (join [34] (q :: l)). split; [auto|split; [auto|split; [auto|]]]. split.
    + cbn [rev app join]. change (u "linkStartMarker:""") with (u "linkStartMarker:" ++ [34]). rewrite <- ?app_assoc. reflexivity.
    + cbn [app repeat_str] in *. exact Hj.
Qed.
Lemma interleave_join sep : forall ps hs, List.length ps = S (List.length hs) -> Forall (fun h => h = sep) hs -> interleave ps hs = join sep ps.
Proof.
  induction ps as [|p ps IH]; intros hs Hl Hh; [discriminate|]. destruct hs as [|h hs].
  - destruct ps; [|discriminate]. cbn. rewrite ?app_nil_r. reflexivity.
  - destruct ps as [|p2 ps]; [discriminate|]. inversion Hh; subst. rewrite join_two, <- (IH hs); auto.
Qed.
Lemma mapM_forall2 {A B} (f : A -> M B) (P : A -> B -> Prop) : (forall a s b s', f a s = Ret b s' -> s' = s /\ P a b) ->
  forall l s out s', mapM f l s = Ret out s' -> s' = s /\ Forall2 P l out.
Proof.
  intros Hf. induction l as [|a l IH]; intros s out s' H; cbn [mapM] in H; [inversion H; subst; auto|].
  apply bind_inv in H as (b & s1 & H1 & H). apply bind_inv in H as (bs & s2 & H2 & H). inversion H; subst.
  apply Hf in H1 as [-> H1]. apply IH in H2 as [-> H2]. auto.
Qed.
Lemma slice_hit h : hit_of (rx_re SLICE_RE) h -> h_text h = u """:".
Proof.
  intros H. apply hit_word in H. revert H. unfold SLICE_RE. cbn [rx_re]. intros H. inversion H; subst.
  match goal with H : word (RCls _) _ |- _ => inversion H; subst end. match goal with H : word (RSeq _ _) _ |- _ => inversion H; subst end.
  repeat match goal with H : word (RCls _) _ |- _ => inversion H; clear H; subst end.
  match goal with H : word (RLook _) _ |- _ => inversion H; subst end.
  repeat match goal with H : in_cls ?k ?c = true |- _ => change k with (one 34) in H || change k with (one 58) in H; rewrite in_one in H; apply N.eqb_eq in H; subst end.
  lits. reflexivity.
Qed.
Lemma cut_hit r : forall b before text lits hits, cut r b before text lits hits -> Forall (hit_of r) hits.
Proof. intros b before text lits hits H. induction H; constructor; auto. eexists; eexists; eexists; split; eauto. Qed.
Lemma slices_join text ps : split_rx SLICE_RE text = Some ps -> ps <> [] /\ text = join (u """:") ps.
Proof.
  intros H. destruct (splitting_plain SLICE_RE text ps eq_refl eq_refl H) as (hits & Hc & E).
  pose proof (cut_length _ _ _ _ _ _ Hc) as Hl. split; [intros ->; discriminate|].
  rewrite E. apply interleave_join; [rewrite map_length; exact Hl|]. apply Forall_map. eapply Forall_impl; [|eapply cut_hit; eauto].
  intros h Hh. apply slice_hit; auto.
Qed.
Lemma marking T fuel text s out s' : mark_start_of_links T fuel text s = Ret out s' ->
  s' = s /\ exists slices outs end_, text = join (u """:") (slices ++ [end_]) /\ out = join (u """:") (outs ++ [end_]) /\
    Forall2 (marked (t_uid T ++ u "linkStartMarker:")) slices outs.
Proof.
  unfold mark_start_of_links. intros H. apply bind_inv in H as (ps & s1 & H1 & H).
  unfold splitM in H1. destruct (split_rx SLICE_RE text) as [ps'|] eqn:E; [|discriminate]. inversion H1; subst ps' s1; clear H1.
  apply slices_join in E as [Hne E]. destruct ps as [|p ps]; [congruence|]. destruct ps as [|p2 ps].
  - inversion H; subst. split; [auto|]. exists [], [], p. cbn. auto.
  - apply bind_inv in H as (outs & s1 & H1 & H). inversion H; subst out s'; clear H.
    apply (mapM_forall2 _ (marked (t_uid T ++ u "linkStartMarker:"))) in H1 as [-> H1]; [|apply mark_slice_marked].
    split; [auto|]. exists (removelast (p :: p2 :: ps)), outs, (last (p :: p2 :: ps) []). split; [|split; [reflexivity|exact H1]].
    rewrite E. f_equal. apply app_removelast_last. discriminate.
Qed.

(** The ordinary case: the mark is put before the nearest double quote. *)
Lemma split_last c a : forall b, ~ In c b -> exists l, split_char c (a ++ c :: b) = l ++ [b] /\ join [c] l = a /\ l <> [].
Proof.
  intros b Hb. assert (split_char c b = [b]) as Eb.
  { clear a. induction b as [|x b IH]; [reflexivity|]. cbn [split_char]. destruct (N.eqb_spec x c); [subst; exfalso; apply Hb; left; auto|].
    rewrite IH; [auto|]. intros Hin. apply Hb. right; auto. }
  induction a as [|x a (l & E & Ej & Hl)]; cbn [app split_char].
  - rewrite N.eqb_refl, Eb. exists [[]]. repeat split. discriminate.
  - rewrite E. destruct (N.eqb_spec x c) as [->|].
    + exists ([] :: l). split; [reflexivity|]. split; [|discriminate]. destruct l; [congruence|]. exact (f_equal (cons c) Ej).
    + destruct l as [|p l]; [congruence|]. exists ((x :: p) :: l). split; [reflexivity|]. split; [|discriminate]. destruct l; cbn [join] in *; rewrite <- Ej; reflexivity.
Qed.
Lemma marking_nearest T fuel a b s : (0 < fuel)%nat -> ~ In 34 b -> b <> [] -> (piece_delta b <= 0)%Z ->
  mark_slice T fuel (a ++ 34 :: b) s = Ret (a ++ t_uid T ++ u "linkStartMarker:""" ++ b) s.
Proof.
  intros Hf Hb Hne Hd. unfold mark_slice. replace (contains_char 34 (a ++ 34 :: b)) with true by (symmetry; apply contains_char_in, in_or_app; right; left; auto).
  cbn [negb]. destruct (split_last 34 a b Hb) as (l & E & Ej & Hl). rewrite E, rev_app_distr. cbn [rev app].
  destruct fuel as [|fuel]; [lia|]. unfold bind. cbn [mark_loop].
  destruct b as [|x b]; [congruence|]. cbn [is_empty negb].
  destruct (rev l) as [|p q] eqn:El; [exfalso; apply Hl; rewrite <- (rev_involutive l), El; reflexivity|].
  replace (0 + piece_delta (x :: b) <=? 0)%Z with true by (symmetry; apply Z.leb_le; lia). unfold ret. cbn [fst snd].
  apply rev_last in El. cbn [rev]. subst l. rewrite quote_lit, <- Ej. reflexivity.
Qed.
Lemma start_first c p : is_ws c = false -> start_nospace (c :: p) = true.
Proof.
  intros H. unfold start_nospace. unfold START_NOSPACE_RE. cbn [rx_re]. eapply is_match_first with (s := mk_mst [c] p []).
  unfold match_at. cbn [m]. unfold in_cls. cbn [c_neg c_items existsb in_item has_prop assert_holds m_before m_after]. rewrite H. reflexivity.
Qed.
Lemma delta_first c p : is_ws c = false -> (piece_delta (c :: p) <= 0)%Z.
Proof. intros H. unfold piece_delta. rewrite start_first by auto. destruct (end_nospace (c :: p)); lia. Qed.

(** ** Rewriting ends *)
Definition ends {A} (m : M A) : Prop := forall s, m s <> Diverge.
Lemma ends_ret {A} (a : A) : ends (ret a). Proof. intros s H. discriminate. Qed.
Lemma ends_panic {A} p : ends (@panic A p). Proof. intros s H. discriminate. Qed.
Lemma ends_bind {A B} (m : M A) (k : A -> M B) : ends m -> (forall a, ends (k a)) -> ends (bind m k).
Proof. intros Hm Hk s. unfold bind. specialize (Hm s). destruct (m s); [apply Hk|discriminate|congruence]. Qed.
Lemma ends_if {A} (b : bool) (m m' : M A) : ends m -> ends m' -> ends (if b then m else m').
Proof. destruct b; auto. Qed.
Lemma ends_of_opt {A} p (o : option A) : ends (of_opt p o).
Proof. destruct o; [apply ends_ret|apply ends_panic]. Qed.
Lemma ends_calm {A} (m : M A) : calm m -> ends m.
Proof. intros [[a H]|[p H]] s; rewrite H; discriminate. Qed.
Lemma ends_capx n h : ends (capx n h). Proof. apply ends_calm, calm_capx. Qed.
Lemma ends_modify f : ends (modify f). Proof. intros s. discriminate. Qed.
Lemma ends_get {A} (k : pstate -> M A) : (forall s, ends (k s)) -> ends (bind get k).
Proof. intros H s. apply (H s s). Qed.
Lemma ends_mapM {A B} (f : A -> M B) l : (forall a, In a l -> ends (f a)) -> ends (mapM f l).
Proof.
  induction l as [|a l IH]; intros H; cbn [mapM]; [apply ends_ret|]. apply ends_bind; [apply H; left; auto|intros b].
  apply ends_bind; [apply IH; intros; apply H; right; auto|intros bs]. apply ends_ret.
Qed.
Lemma ends_replace r f text : (forall h, hit_of r h -> ends (f h)) -> ends (replace_allM r f text).
Proof.
  intros H. unfold replace_allM. apply ends_bind; [|intros l; apply ends_ret]. apply ends_mapM. intros [c|h] Hin; cbn [replace_segM]; [apply ends_ret|].
  apply H. eapply segs_hits; eauto.
Qed.
Lemma ends_unrestrict T url : ends (unrestrict_url T url).
Proof.
  unfold unrestrict_url. apply ends_if; [|apply ends_ret]. unfold reverse_encode_html. apply ends_replace. intros h _.
  unfold reverse_entity. apply ends_bind; [apply ends_capx|intros v]. repeat (apply ends_if; [apply ends_ret|]). apply ends_panic.
Qed.
Lemma ends_shelve T t : ends (shelve T t). Proof. intros s. rewrite shelve_eq. discriminate. Qed.
Lemma ends_shelve_url W T x : ends (shelve_url W T x). Proof. intros s. rewrite shelve_url_eq. discriminate. Qed.
Lemma ends_align a : ends (align_name a).
Proof. unfold align_name. repeat (apply ends_if; [apply ends_ret|]). apply ends_panic. Qed.
Lemma ends_image_size W url : ends (get_image_size W url).
Proof.
  unfold get_image_size. apply ends_bind; [apply ends_modify|intros _]. apply ends_if; [|apply ends_ret].
  intros s. destruct (read_loop_ends W url (MAX_IMAGE_CHUNK + 2) O [] s) as [v E]; [cbn [List.length]; lia|cbn [List.length]; lia|]. rewrite E. discriminate.
Qed.
Lemma ends_image W T text : ends (image W T text).
Proof.
  unfold image. apply ends_replace. intros h _. unfold f_image. apply ends_bind; [apply ends_capx|intros url]. apply ends_if; [apply ends_ret|].
  apply ends_bind; [destruct (cap_opt 2 h); [|apply ends_ret]; apply ends_bind; [apply ends_calm, calm_ba|intros; apply ends_ret]|intros a1].
  apply ends_bind; [destruct (cap_opt 1 h); [|apply ends_ret]; apply ends_bind; [apply ends_align|intros; apply ends_ret]|intros a2].
  apply ends_bind; [apply ends_if; [|apply ends_ret]; apply ends_bind; [apply ends_image_size|intros [[? ?]|]; apply ends_ret]|intros a3].
  apply ends_bind; [apply ends_unrestrict|intros cu]. apply ends_bind; [apply ends_shelve_url|intros ui].
  apply ends_bind; [|intros; apply ends_shelve]. destruct (cap_opt 5 h); [|apply ends_ret].
  apply ends_bind; [apply ends_unrestrict|intros]. apply ends_bind; [apply ends_shelve_url|intros; apply ends_ret].
Qed.
Lemma ends_glyphs T text : ends (glyphs T text).
Proof. unfold glyphs, splitM. apply ends_bind; [apply ends_of_opt|intros; apply ends_ret]. Qed.
Lemma ends_f_link W T x h : uid_plain (t_uid T) = true -> link_re (t_uid T) = Some x -> hit_of (rx_re x) h -> ends (f_link W T h).
Proof.
  intros Hp Hx Hh. destruct (link_hit _ _ _ Hp Hx Hh) as (pre & inner & url & Ht & E1 & E2 & E3 & Hpre & Hurl).
  assert (~ In 10 url) as Hnl. { intros Hin. rewrite Forall_forall in Hurl. apply Hurl in Hin. discriminate. }
  unfold f_link. rewrite E1. apply ends_bind; [apply ends_capx|intros i0].
  intros s. unfold bind at 1. unfold capx at 1. rewrite E3. cbn [of_opt]. unfold ret at 1. revert s.
  match goal with |- forall s, ?m s <> Diverge => change (ends m) end. apply ends_if; [apply ends_ret|].
  generalize (replace_char i0 10 (br_tag T)) as inner'. intros inner'.
  destruct (match captures (rx_re LINK_BLOCK_RE) inner' with Some m => _ | None => _ end) as [[atts text] title].
  destruct (cut_brackets url) as [url1 tight] eqn:Ecut. apply cut_brackets_split in Ecut as [Eurl Htight].
  replace (count_char 93 url) with (count_char 93 (url1 ++ tight)) by congruence.
  intros s. unfold bind at 1. change (cc_set 93 (Some (N.of_nat (count_char 93 (url1 ++ tight)))) (cc_new [91; 93; 40; 41]) s)
    with (Ret [(91, None); (93, Some (N.of_nat (count_char 93 (url1 ++ tight)))); (40, None); (41, None)] s). cbv iota beta.
  destruct (trim_spec tight url1 (S (List.length url1)) url1 [] pre None None None true s) as (kept & p & Etrim & Hcut); auto; try lia.
  { intros Hin. apply Hnl. rewrite Eurl. apply in_or_app; auto. }
  { left. auto. }
  unfold bind at 1. rewrite Etrim. cbv iota beta. clear Etrim. revert s.
  match goal with |- forall s, ?m s <> Diverge => change (ends m) end.
  apply ends_bind; [apply ends_unrestrict|intros full]. apply ends_if; [apply ends_ret|].
  apply ends_bind; [apply ends_if; [|apply ends_ret]; apply ends_if; [apply ends_ret|]; apply ends_get; intros s; destruct (assoc _ _); apply ends_ret|intros t1].
  apply ends_bind; [apply ends_if; [apply ends_ret|apply ends_image]|intros t2].
  apply ends_bind; [intros s; apply span_ends|intros t3]. apply ends_bind; [apply ends_glyphs|intros t4].
  apply ends_bind; [apply ends_shelve_url|intros ui]. apply ends_bind; [apply ends_calm, calm_ba|intros ba].
  apply ends_bind; [apply ends_if; [apply ends_ret|]; apply ends_bind; [apply ends_shelve|intros; apply ends_ret]|intros at1].
  apply ends_bind; [apply ends_shelve|intros; apply ends_ret].
Qed.

Lemma replace_go_shrinks c from : forall s k, (count_char c (replace_go from [] k s) <= count_char c s)%nat /\ (List.length (replace_go from [] k s) <= List.length s)%nat.
Proof.
  induction s as [|x s IH]; intros k; cbn [replace_go]; [cbn; lia|].
  change (x :: s) with ([x] ++ s). rewrite count_app. cbn [app List.length].
  destruct k as [|k]; [|destruct (IH k); lia]. destruct (starts_with from (x :: s)); cbn [app]; [destruct (IH (List.length from - 1)%nat); lia|].
  change (x :: replace_go from [] 0 s) with ([x] ++ replace_go from [] 0 s). rewrite count_app. destruct (IH O). cbn [app List.length]. lia.
Qed.
Lemma replace_go_strict from : from <> [] -> forall s, contains from s = true -> (List.length (replace_go from [] 0 s) < List.length s)%nat.
Proof.
  intros Hne. induction s as [|x s IH]; cbn [contains replace_go].
  - rewrite orb_false_r. destruct from; [congruence|discriminate].
  - destruct (starts_with from (x :: s)); cbn [orb app List.length]; intros H.
    + destruct (replace_go_shrinks 0 from s (List.length from - 1)%nat). lia.
    + apply IH in H. lia.
Qed.
Lemma starts_with_app p s : starts_with p (p ++ s) = true.
Proof. induction p as [|c p IH]; cbn [starts_with app]; [reflexivity|]. rewrite N.eqb_refl. exact IH. Qed.
Lemma contains_mid p a b : contains p (a ++ p ++ b) = true.
Proof.
  induction a as [|x a IH]; cbn [app].
  - destruct (p ++ b) eqn:E; [destruct p; [reflexivity|discriminate]|]. cbn [contains]. rewrite <- E, starts_with_app. reflexivity.
  - cbn [contains]. rewrite IH. apply orb_true_r.
Qed.
Lemma without_squares_in w p : without_squares w p -> forall c, In c p -> In c w.
Proof. induction 1; intros x Hx; cbn [In] in *; auto; destruct Hx; auto. Qed.
Lemma without_squares_app w p : without_squares w p -> forall w' p', without_squares w' p' -> without_squares (w ++ w') (p ++ p').
Proof. induction 1; intros w' p' H'; cbn [app]; auto; constructor; auto. Qed.
Lemma without_squares_refl w : without_squares w w.
Proof. induction w; constructor; auto. Qed.
(** What [cut_end] gives back. *)
Lemma cut_end_split tight url kept back : cut_end tight url kept back ->
  exists lost w, url = kept ++ lost ++ w /\ without_squares w back /\ (lost = [] \/ lost = [62]) /\
  (forall q c, kept = q ++ [c] -> lost = [] -> ~ sentence_mark c).
Proof.
  induction 1 as [|q c H1 H2 H3 H4|q c kept back H1 H2 IH|q name kept back H1 H2 IH|q H1|q kept back H1 H2 IH|q kept back H1 H2 IH].
  - exists [], []. repeat split; auto; [constructor|]. intros q c H. destruct q; discriminate.
  - exists [], []. cbn [app]. rewrite app_nil_r. repeat split; auto; [constructor|]. intros q' c' E _. apply app_inj_tail in E as [_ <-]. auto.
  - destruct IH as (lost & w & -> & Hw & Hl & Hk). exists lost, (w ++ [c]). rewrite <- !app_assoc. repeat split; auto. apply without_squares_app; auto. apply without_squares_refl.
  - destruct IH as (lost & w & -> & Hw & Hl & Hk). exists lost, (w ++ u "</" ++ name ++ u ">"). rewrite <- !app_assoc. repeat split; auto. apply without_squares_app; auto. apply without_squares_refl.
  - exists [62], []. cbn [app]. repeat split; auto; [constructor|discriminate].
  - destruct IH as (lost & w & -> & Hw & Hl & Hk). exists lost, (w ++ [41]). rewrite <- !app_assoc. repeat split; auto. apply without_squares_app; auto. apply without_squares_refl.
  - destruct IH as (lost & w & -> & Hw & Hl & Hk). exists lost, (w ++ [93]). rewrite <- !app_assoc. repeat split; auto. rewrite <- (app_nil_r back). apply without_squares_app; auto. repeat constructor.
Qed.
Lemma url_cut_split url kept back pre pre' : url_cut url kept back pre pre' ->
  exists lost w, url = kept ++ lost ++ w /\ without_squares w back /\ (lost = [] \/ lost = [62]) /\
  (forall q c, kept = q ++ [c] -> lost = [] -> ~ sentence_mark c).
Proof.
  intros (url1 & tight & back1 & -> & _ & H & -> & _). apply cut_end_split in H as (lost & w & -> & Hw & Hl & Hk).
  exists lost, (w ++ tight). rewrite <- !app_assoc. repeat split; auto. apply without_squares_app; auto. apply without_squares_refl.
Qed.

Definition quotes_of (s : str) : nat := count_char 34 s.
Lemma count_zero_dec c n : ~ 48 <= c <= 57 -> count_char c (dec n) = O.
Proof. intros H. apply count_none. intros Hin. pose proof (dec_digits n) as D. rewrite Forall_forall in D. apply D in Hin. auto. Qed.
Lemma hit_shrinks W T x h s out s' : uid_plain (t_uid T) = true -> link_re (t_uid T) = Some x -> hit_of (rx_re x) h ->
  f_link W T h s = Ret out s' ->
  (quotes_of out < quotes_of (h_text h))%nat \/ (quotes_of out <= quotes_of (h_text h))%nat /\ (List.length out < List.length (h_text h))%nat.
Proof.
  intros Hp Hx Hh H. destruct (link_outcome _ _ _ _ _ _ _ Hp Hx Hh H) as (pre & inner & url & -> & Hpre & Hurl & HO).
  unfold quotes_of.
  assert (count_char 34 url = O) as Hu. { apply count_none. intros Hin. rewrite Forall_forall in Hurl. apply Hurl in Hin. discriminate. }
  assert (count_char 34 pre = O) as Hpq by (destruct Hpre as [-> | ->]; reflexivity).
  assert (count_char 34 (u "linkStartMarker:""") = 1%nat /\ count_char 34 (u """:") = 1%nat /\ count_char 34 (u """"":") = 2%nat /\ count_char 34 (u ":shelve") = O) as (Q1 & Q2 & Q3 & Q4) by (repeat split; reflexivity).
  destruct HO as [-> -> _|kept back pre' full Hne Hcut _ _ -> _|kept back pre' full token Hne Hcut _ _ [i ->] _ ->].
  - right. unfold marked_link. rewrite !count_app, Hu, Hpq, Q1, Q2, Q3. cbn [List.length]. rewrite !app_length. cbn [List.length]. 
    change (List.length (u """"":")) with 3%nat. change (List.length (u "linkStartMarker:""")) with 17%nat. change (List.length (u """:")) with 2%nat. change (count_char 34 []) with O. lia.
  - right. unfold replace_str. assert (t_uid T ++ u "linkStartMarker:" <> []) as Hnn by (intros E; apply app_eq_nil in E as [_ E]; discriminate).
    destruct (t_uid T ++ u "linkStartMarker:") as [|c0 nn] eqn:En; [congruence|]. rewrite <- En in *. split; [apply replace_go_shrinks|].
    apply replace_go_strict; auto. unfold marked_link. change (u "linkStartMarker:""") with (u "linkStartMarker:" ++ [34]).
    replace (pre ++ t_uid T ++ (u "linkStartMarker:" ++ [34]) ++ inner ++ u """:" ++ url) with (pre ++ (t_uid T ++ u "linkStartMarker:") ++ [34] ++ inner ++ u """:" ++ url) by (rewrite <- !app_assoc; reflexivity).
    apply contains_mid.
  - left. destruct (url_cut_split _ _ _ _ _ Hcut) as (lost & w & -> & Hw & _).
    assert (count_char 34 back = O) as Hb. { apply count_none. intros Hin. apply (without_squares_in _ _ Hw) in Hin. rewrite Forall_forall in Hurl.
      assert (url_stop 34 = false) as Hs by (apply Hurl; rewrite !in_app_iff; auto). discriminate. }
    assert (count_char 34 pre' = O) as Hp'. { destruct Hcut as (u1 & t1 & b1 & _ & _ & _ & _ & [[_ ->]|[_ ->]]); [reflexivity|exact Hpq]. }
    unfold marked_link. rewrite !count_app, Hb, Hp', count_zero_dec by lia. rewrite Q1, Q2, Q4. rewrite !count_app in Hu. lia.
Qed.
Lemma wf_lit r : forall w, wf_re (lit_then w r) = wf_re r.
Proof. induction w as [|c w IH]; cbn [lit_then wf_re]; [auto|]. rewrite IH. reflexivity. Qed.
Lemma wf_link uid x : uid_plain uid = true -> link_re uid = Some x -> wf_re (rx_re x) = true.
Proof. intros Hp Hx. rewrite (link_shape _ _ Hp Hx). cbn [wf_re]. rewrite wf_lit. reflexivity. Qed.
Lemma mapM_shrinks {f : hit -> M str} (P : hit -> Prop) : 
  (forall h s out s', P h -> f h s = Ret out s' -> (quotes_of out < quotes_of (h_text h))%nat \/ (quotes_of out <= quotes_of (h_text h))%nat /\ (List.length out < List.length (h_text h))%nat) ->
  forall lits hits s outs s', List.length lits = S (List.length hits) -> Forall P hits -> mapM f hits s = Ret outs s' ->
  let a := interleave lits outs in let b := interleave lits (map h_text hits) in
  (quotes_of a < quotes_of b)%nat \/ (quotes_of a <= quotes_of b)%nat /\ (List.length a < List.length b)%nat \/ a = b.
Proof.
  intros Hf. induction lits as [|x lits IH]; intros hits s outs s' Hl HP H; [discriminate|]. destruct hits as [|h hits].
  - inversion H; subst. right; right. reflexivity.
  - cbn [mapM] in H. apply bind_inv in H as (o & s1 & H1 & H). apply bind_inv in H as (os & s2 & H2 & H). inversion H; subst. inversion HP; subst.
    apply Hf in H1; auto. apply IH in H2; auto. cbn [map interleave] in *. unfold quotes_of in *. rewrite !count_app, !app_length.
    destruct H2 as [H2|[H2|H2]]; [| |rewrite H2]; lia.
Qed.
Lemma link_loop_ends W T x : uid_plain (t_uid T) = true -> link_re (t_uid T) = Some x -> forall text s,
  exists N, forall n, (N <= n)%nat -> link_loop W T n x text s = link_loop W T N x text s /\ link_loop W T n x text s <> Diverge.
Proof.
  intros Hp Hx.
  assert (forall q l text s, (quotes_of text <= q)%nat -> (quotes_of text = q -> List.length text <= l)%nat ->
    exists N, forall n, (N <= n)%nat -> link_loop W T n x text s = link_loop W T N x text s /\ link_loop W T n x text s <> Diverge) as P.
  2:{ intros text s. apply (P (quotes_of text) (List.length text)); lia. }
  induction q as [q IHq] using lt_wf_ind. induction l as [l IHl] using lt_wf_ind. intros text s Hq Hl.
  destruct (contains (needle (t_uid T)) text) eqn:Ec.
  2:{ exists 1%nat. intros [|n] Hn; [lia|]. cbn [link_loop]. rewrite Ec. split; [reflexivity|discriminate]. }
  destruct (replace_allM (rx_re x) (f_link W T) text s) as [new s1|p|] eqn:Er.
  - destruct (seqb new text) eqn:Es.
    + exists 1%nat. intros [|n] Hn; [lia|]. cbn [link_loop]. rewrite Ec. unfold bind. rewrite Er, Es. split; [reflexivity|discriminate].
    + assert ((quotes_of new < quotes_of text)%nat \/ (quotes_of new <= quotes_of text)%nat /\ (List.length new < List.length text)%nat) as Hs.
      { destruct (substitutionM (rx_re x) (f_link W T) text s (wf_link _ _ Hp Hx)) as (lits & hits & Hc & Et & E). rewrite Er in E. symmetry in E.
        apply bind_inv in E as (outs & s2 & H1 & H2). inversion H2; subst s2 new.
        pose proof (mapM_shrinks (hit_of (rx_re x)) (fun h s0 o s0' Hh => hit_shrinks W T x h s0 o s0' Hp Hx Hh) lits hits s outs s1
          (cut_length _ _ _ _ _ _ Hc) (cut_hit _ _ _ _ _ _ Hc) H1) as S. cbn zeta in S. rewrite <- Et in S.
        destruct S as [S|[S|S]]; auto. rewrite S in Es. rewrite seqb_refl in Es. discriminate. }
      assert (exists N, forall n, (N <= n)%nat -> link_loop W T n x new s1 = link_loop W T N x new s1 /\ link_loop W T n x new s1 <> Diverge) as (N & HN).
      { destruct (Nat.lt_ge_cases (quotes_of new) q) as [Hlt|Hge].
        - apply (IHq (quotes_of new) Hlt (List.length new)); lia.
        - apply (IHl (List.length new)); lia. }
      exists (S N). intros [|n] Hn; [lia|]. cbn [link_loop]. rewrite Ec. unfold bind. rewrite Er, Es. apply HN. lia.
  - exists 1%nat. intros [|n] Hn; [lia|]. cbn [link_loop]. rewrite Ec. unfold bind. rewrite Er. split; [reflexivity|discriminate].
  - exfalso. revert Er. apply ends_replace. intros h Hh. eapply ends_f_link; eauto.
Qed.

(** ** Brackets at the end of a URL *)
Lemma cut_end_paren tight q kept back : cut_end tight (q ++ [41]) kept back ->
  (parens_balanced (q ++ [41]) -> kept = q ++ [41] /\ back = []) /\
  (~ parens_balanced (q ++ [41]) -> exists b, back = b ++ [41] /\ cut_end tight q kept b).
Proof.
  intros H. remember (q ++ [41]) as x eqn:E. destruct H as [|q' c H1 H2 H3 H4|q' c kept back H1 H2|q' name kept back H1 H2|q' H1|q' kept back H1 H2|q' kept back H1 H2].
  - destruct q; discriminate.
  - split; [auto|]. intros Hn. apply app_inj_tail in E as [-> ->]. exfalso. auto.
  - apply app_inj_tail in E as [-> ->]. exfalso. revert H1. unfold sentence_mark. lits. cbn [In]. lia.
  - exfalso. change (u ">") with [62] in E. rewrite !app_assoc in E. apply app_inj_tail in E as [_ E]. discriminate.
  - apply app_inj_tail in E as [_ E]. discriminate.
  - apply app_inj_tail in E as [-> _]. split; [congruence|]. eauto.
  - apply app_inj_tail in E as [_ E]. discriminate.
Qed.
Lemma cut_end_square tight q kept back : cut_end tight (q ++ [93]) kept back ->
  (squares_balanced tight (q ++ [93]) -> kept = q ++ [93] /\ back = []) /\
  (~ squares_balanced tight (q ++ [93]) -> cut_end tight q kept back).
Proof.
  intros H. remember (q ++ [93]) as x eqn:E. destruct H as [|q' c H1 H2 H3 H4|q' c kept back H1 H2|q' name kept back H1 H2|q' H1|q' kept back H1 H2|q' kept back H1 H2].
  - destruct q; discriminate.
  - split; [auto|]. intros Hn. apply app_inj_tail in E as [-> ->]. exfalso. auto.
  - apply app_inj_tail in E as [-> ->]. exfalso. revert H1. unfold sentence_mark. lits. cbn [In]. lia.
  - exfalso. change (u ">") with [62] in E. rewrite !app_assoc in E. apply app_inj_tail in E as [_ E]. discriminate.
  - apply app_inj_tail in E as [_ E]. discriminate.
  - apply app_inj_tail in E as [_ E]. discriminate.
  - apply app_inj_tail in E as [-> _]. split; [congruence|]. eauto.
Qed.
(** ** Counters *)
Lemma counter_new chars c s : cc_get c (cc_new chars) s = if existsb (N.eqb c) chars then Ret None s else Panic BadCounter.
Proof.
  unfold cc_get, cc_new. induction chars as [|x l IH]; [reflexivity|]. cbn [map assocN existsb]. rewrite (N.eqb_sym c x).
  destruct (x =? c); [reflexivity|exact IH].
Qed.
Lemma update_assoc c v : forall k k', cc_update c v k = Some k' -> forall c', assocN c' k' = if c' =? c then Some v else assocN c' k.
Proof.
  induction k as [|[a b] k IH]; intros k' H c'; [discriminate|]. cbn [cc_update] in H. destruct (N.eqb_spec a c) as [->|n].
  - inversion H; subst. cbn [assocN]. rewrite (N.eqb_sym c c'). destruct (c' =? c); auto.
  - destruct (cc_update c v k) as [k2|]; [|discriminate]. cbn in H. inversion H; subst. cbn [assocN]. destruct (N.eqb_spec a c') as [->|n'].
    + destruct (N.eqb_spec c' c); [congruence|auto].
    + apply IH. auto.
Qed.
Lemma update_none c v : forall k, cc_update c v k = None <-> assocN c k = None.
Proof.
  induction k as [|[a b] k IH]; [cbn; tauto|]. cbn [cc_update assocN]. destruct (a =? c); [split; discriminate|].
  rewrite <- IH. destruct (cc_update c v k); cbn; split; intros H; try discriminate H; reflexivity.
Qed.
Lemma counter_set c v k s : match cc_set c v k s with
  | Ret k' s' => s' = s /\ cc_get c k s <> Panic BadCounter /\ forall c', cc_get c' k' s = if c' =? c then Ret v s else cc_get c' k s
  | Panic p => p = BadCounter /\ cc_get c k s = Panic BadCounter
  | Diverge => False
  end.
Proof.
  unfold cc_set, cc_get. destruct (cc_update c v k) as [k'|] eqn:E; cbn [of_opt ret panic].
  2:{ apply update_none in E. rewrite E. auto. }
  split; [auto|]. split; [destruct (assocN c k) eqn:Ea; [discriminate|]; apply (update_none c v) in Ea; congruence|].
  intros c'. rewrite (update_assoc _ _ _ _ E). destruct (c' =? c); reflexivity.
Qed.
Lemma counter_dec c k s : match cc_dec c k s with
  | Ret k' s' => s' = s /\ exists n, cc_get c k s = Ret (Some n) s /\ forall c', cc_get c' k' s = if c' =? c then Ret (Some (N.pred n)) s else cc_get c' k s
  | Panic p => p = BadCounter /\ (cc_get c k s = Panic BadCounter \/ cc_get c k s = Ret None s)
  | Diverge => False
  end.
Proof.
  unfold cc_dec, bind. destruct (cc_get c k s) as [[n|] s1|p|] eqn:E.
  - assert (s1 = s) as -> by (unfold cc_get in E; destruct (assocN c k); inversion E; auto).
    pose proof (counter_set c (Some (if 0 <? n then n - 1 else 0)) k s) as P. destruct (cc_set c _ k s) as [k' s'|p|]; auto.
    + destruct P as (-> & P1 & P2). split; [auto|]. exists n. split; [auto|]. intros c'. rewrite P2. destruct (c' =? c); [|auto]. f_equal. f_equal.
      destruct (N.ltb_spec 0 n); lia.
    + destruct P as [-> P]. congruence.
  - assert (s1 = s) as -> by (unfold cc_get in E; destruct (assocN c k); inversion E; auto). cbn. split; auto.
  - unfold cc_get in E. destruct (assocN c k); inversion E. auto.
  - unfold cc_get in E. destruct (assocN c k); inversion E.
Qed.

(** ** Aliases *)
Lemma assoc_im_other {A} k k2 (v : A) : k2 <> k -> forall l, assoc k2 (im_insert k v l) = assoc k2 l.
Proof.
  intros Hk. induction l as [|[k' v'] l IH]; cbn [im_insert assoc].
  - destruct (seqb k k2) eqn:E; [apply seqb_eq in E; congruence|reflexivity].
  - destruct (seqb k' k) eqn:E; cbn [assoc].
    + apply seqb_eq in E. subst k'. destruct (seqb k k2) eqn:E2; [apply seqb_eq in E2; congruence|reflexivity].
    + destruct (seqb k' k2); auto.
Qed.
Lemma concat_lits : forall lits, forall n, (List.length lits = S n) -> interleave lits (repeat [] n) = List.concat lits.
Proof.
  induction lits as [|x lits IH]; intros n H; [discriminate|]. destruct n; cbn [repeat interleave List.concat].
  - destruct lits; [rewrite app_nil_r; auto|discriminate].
  - cbn [app]. rewrite IH; auto.
Qed.
Definition alias_def (T : textile) (h : hit) (d : str * str) : Prop :=
  cap_text 1 (h_caps h) = Some (fst d) /\ exists url, cap_text 2 (h_caps h) = Some url /\ forall s, unrestrict_url T url s = Ret (snd d) s.
Definition alias_re (T : textile) : re := rx_re (if t_restricted T then RESTRICTED_URLREF_RE else UNRESTRICTED_URLREF_RE).
Lemma aliases T text s out s' : get_refs T text s = Ret out s' ->
  exists lits hits defs, cut (alias_re T) false [] text lits hits /\ text = interleave lits (map h_text hits) /\ out = List.concat lits /\
    Forall2 (alias_def T) hits defs /\
    forall alias, assoc alias (ps_urlrefs s') = match last_def alias defs with Some url => Some (Raw url) | None => assoc alias (ps_urlrefs s) end.
Proof.
  unfold get_refs. fold (alias_re T). intros H.
  destruct (substitutionM (alias_re T) (f_ref T) text s) as (lits & hits & Hc & Et & E); [unfold alias_re; destruct (t_restricted T); reflexivity|].
  rewrite H in E. symmetry in E. apply bind_inv in E as (outs & s2 & H1 & H2). inversion H2; subst out s2. clear H H2.
  exists lits, hits. pose proof (cut_length _ _ _ _ _ _ Hc) as Hl.
  assert (outs = repeat [] (List.length hits) /\ exists defs, Forall2 (alias_def T) hits defs /\
    forall alias, assoc alias (ps_urlrefs s') = match last_def alias defs with Some url => Some (Raw url) | None => assoc alias (ps_urlrefs s) end) as (-> & defs & HF & HA).
  { clear Hc Et Hl lits text. revert s outs s' H1. induction hits as [|h hits IH]; intros s outs s' H1.
    - inversion H1; subst. split; [auto|]. exists []. split; [constructor|auto].
    - cbn [mapM] in H1. apply bind_inv in H1 as (o & s1 & H1 & H). apply bind_inv in H as (os & s2 & H2 & H). inversion H; subst. clear H.
      apply IH in H2 as (-> & defs & HF & HA). unfold f_ref in H1.
      apply bind_inv in H1 as (flag & s3 & E1 & H1). unfold capx in E1. destruct (cap_text 1 (h_caps h)) as [f|] eqn:F1; [|discriminate]. inversion E1; subst f s3. clear E1.
      apply bind_inv in H1 as (url0 & s3 & E1 & H1). unfold capx in E1. destruct (cap_text 2 (h_caps h)) as [f|] eqn:F2; [|discriminate]. inversion E1; subst f s3. clear E1.
      apply bind_inv in H1 as (url & s3 & E1 & H1). unfold bind, modify, ret in H1. inversion H1; subst o s1. clear H1.
      assert (forall s, unrestrict_url T url0 s = Ret url s) as HU.
      { destruct (sl_unrestrict T url0) as [[a Ha]|[[p [_ Ha]]|Ha]]; rewrite Ha in E1; inversion E1; subst; auto. }
      rewrite HU in E1. inversion E1; subst s3. clear E1.
      split; [reflexivity|]. exists ((flag, url) :: defs). split; [constructor; [split; [auto|eauto]|auto]|].
      intros alias. rewrite HA. cbn [last_def]. destruct (last_def alias defs); [reflexivity|]. cbn [ps_urlrefs set_urlrefs].
      destruct (seqb flag alias) eqn:Ef; [apply seqb_eq in Ef; subst alias; apply assoc_im|]. apply assoc_im_other. intros ->. rewrite seqb_refl in Ef. discriminate. }
  exists defs. repeat split; auto. apply concat_lits. auto.
Qed.
Lemma token_address W h i stored s : cap_text 1 (h_caps h) = Some (dec i) -> i <= u32_max -> assocN i (ps_ref_cache s) = Some stored ->
  retrieve_url_hit W h s = Ret (address W s stored) s.
Proof.
  intros H1 H2 H3. unfold retrieve_url_hit, bind, capx, get. rewrite H1. cbn [of_opt ret]. unfold ret at 1.
  assert (parse_uint u32_max (dec i) = Some i) as -> by (apply parse_uint_dec; auto).
  rewrite H3. unfold address, us_to_html_string. destruct stored; cbn [is_empty]; [reflexivity|]. destruct (assoc _ _); reflexivity.
Qed.

(** ** Marking may go on for ever *)
Lemma mark_loop_stuck : forall n poss parts balanced first s, poss <> [] -> (0 <= piece_delta poss)%Z -> (0 < balanced)%Z ->
  mark_loop n [] poss parts balanced first s = Diverge.
Proof.
  induction n as [|n IH]; intros poss parts balanced first s H1 H2 H3; [reflexivity|]. cbn [mark_loop].
  destruct poss as [|c poss]; [congruence|]. cbn [is_empty negb]. destruct (Z.leb_spec (balanced + piece_delta (c :: poss)) 0); [lia|].
  apply IH; auto.
Qed.
Lemma bind_diverge {A B} (m : M A) (k : A -> M B) s : m s = Diverge -> bind m k s = Diverge.
Proof. intros H. unfold bind. rewrite H. reflexivity. Qed.
Lemma bind_step {A B} (m : M A) (k : A -> M B) s a s1 : m s = Ret a s1 -> k a s1 = Diverge -> bind m k s = Diverge.
Proof. intros H. unfold bind. rewrite H. auto. Qed.
Lemma split_none c : forall b, ~ In c b -> split_char c b = [b].
Proof.
  induction b as [|x b IH]; cbn [split_char]; intros H; [reflexivity|]. rewrite IH by (intros F; apply H; right; auto).
  destruct (N.eqb_spec x c) as [->|]; [destruct H; left; reflexivity|reflexivity].
Qed.
Lemma split_once c b : forall p, ~ In c p -> split_char c (p ++ [c] ++ b) = p :: split_char c b.
Proof.
  induction p as [|x p IH]; cbn [split_char app]; intros H; [rewrite N.eqb_refl; reflexivity|].
  cbn [app] in IH. rewrite IH by (intros F; apply H; right; auto).
  destruct (N.eqb_spec x c) as [->|]; [destruct H; left; reflexivity|reflexivity].
Qed.
Lemma marking_diverges T p b : ~ In 34 p -> ~ In 34 b -> p <> [] -> b <> [] -> (0 <= piece_delta p)%Z -> (0 < piece_delta b)%Z ->
  forall fuel s, mark_slice T fuel (p ++ [34] ++ b) s = Diverge.
Proof.
  intros Hp Hb Np Nb Dp Db fuel s. unfold mark_slice.
  assert (contains_char 34 (p ++ [34] ++ b) = true) as ->.
  { unfold contains_char. apply existsb_exists. exists 34. split; [|apply N.eqb_refl]. apply in_or_app. right. left. reflexivity. }
  cbn [negb]. rewrite (split_once 34 b p Hp), (split_none 34 b Hb). cbn [rev app].
  apply bind_diverge. destruct fuel as [|fuel]; [reflexivity|]. cbn [mark_loop].
  destruct b as [|c b]; [congruence|]. cbn [is_empty negb]. destruct (Z.leb_spec (0 + piece_delta (c :: b)) 0); [lia|].
  apply mark_loop_stuck; auto.
Qed.

(** ** Images *)
Lemma assocN_nm_other {A} k k2 (v : A) : k2 <> k -> forall l, assocN k2 (nm_insert k v l) = assocN k2 l.
Proof.
  intros Hk. induction l as [|[k' v'] l IH]; cbn [nm_insert assocN].
  - destruct (N.eqb_spec k k2); [congruence|reflexivity].
  - destruct (N.eqb_spec k' k) as [->|]; cbn [assocN]; [destruct (N.eqb_spec k k2); [congruence|reflexivity]|]. destruct (k' =? k2); auto.
Qed.
Lemma generate_img attrs : exists l, generate_tag (u "img") None attrs = img_tag l /\
  forall k, forallb is_valid_attribute_char k = true -> assoc k l = assoc k attrs.
Proof.
  exists (filter (fun a => forallb is_valid_attribute_char (fst a)) attrs). split.
  - unfold generate_tag, img_tag, join_html_attributes. replace (is_empty (u "img")) with false by reflexivity.
    replace (negb (forallb is_alphanumeric (u "img"))) with false by reflexivity. unfold attr_str. rewrite <- !app_assoc. reflexivity.
  - intros k Hk. apply (assoc_filter (forallb is_valid_attribute_char)). exact Hk.
Qed.
Lemma shown_html W x : us_to_html_string W (Raw x) = shown_url W x.
Proof. destruct x; reflexivity. Qed.
Lemma image_outcome W T h s out s' : f_image W T h s = Ret out s' -> exists url, cap_text 3 (h_caps h) = Some url /\
  (~ scheme_ok T (url_parse W url) /\ out = h_text h /\ s' = s \/
   scheme_ok T (url_parse W url) /\ shelf_token T out /\ exists src dest s1 s2, unrestrict_url T url s1 = Ret src s1 /\
     match cap_text 5 (h_caps h) with
     | None => dest = None
     | Some href => exists x, dest = Some x /\ unrestrict_url T href s2 = Ret x s2
     end /\ imaged W T src dest out s').
Proof.
  unfold f_image. intros H. apply bind_inv in H as (url & s1 & H1 & H). unfold capx in H1. destruct (cap_text 3 (h_caps h)) as [x|]; [|discriminate]. inversion H1; subst x s1. clear H1.
  exists url. split; [auto|]. rewrite if_app in H.
  assert (is_valid_url W T url = true <-> scheme_ok T (url_parse W url)) as Hv.
  { rewrite <- scheme_ok_iff. unfold is_valid_url. destruct (is_empty _); [|tauto]. cbn [orb]. tauto. }
  destruct (is_valid_url W T url); cbn [negb] in H.
  2:{ left. inversion H; subst. split; [intros F; apply Hv in F; discriminate|auto]. }
  right. split; [tauto|]. apply bind_inv in H as (atts & s1 & _ & H). apply bind_inv in H as (atts1 & s2 & _ & H). apply bind_inv in H as (atts2 & s3 & _ & H).
  apply bind_inv in H as (src & s4 & Hsrc & H). assert (s4 = s3) by (eapply stateless_ret; [apply sl_unrestrict|eauto]). subst s4.
  apply bind_inv in H as (id & s5 & H5 & H). rewrite shelve_url_eq in H5. inversion H5; subst id s5; clear H5.
  set (i := ps_ref_index s3 + 1) in *. apply bind_inv in H as (o & s6 & H6 & H). rewrite shelve_eq in H. inversion H; subst out s'; clear H.
  split; [eexists; reflexivity|]. unfold cap_opt in *.
  match type of H6 with context [generate_tag (u "img") None ?a] => destruct (generate_img a) as (l & El & Hl); set (full := a) in * end.
  assert (assoc (u "src") l = Some (t_uid T ++ dec i ++ u ":url")) as Hs.
  { rewrite Hl by reflexivity. unfold full. destruct (cap_text 4 (h_caps h)); [unfold attr_insert at 1; rewrite assoc_bt_other by discriminate|]; apply assoc_bt. }
  destruct (cap_text 5 (h_caps h)) as [href|].
  - apply bind_inv in H6 as (dst & s7 & Hdst & H6). pose proof Hdst as Hd. apply (stateless_ret T) in Hd; [|apply sl_unrestrict]. subst s7.
    apply bind_inv in H6 as (id & s8 & H8 & H6). rewrite shelve_url_eq in H8. inversion H8; subst id s8; clear H8. inversion H6; subst o s6; clear H6.
    match type of Hdst with unrestrict_url _ _ ?st = _ => exists src, (Some dst), s3, st end. split; [auto|]. split; [eauto|].
    set (token' := t_uid T ++ dec (i + 1) ++ u ":url"). exists l, (a_tag [(u "href", token')] (img_tag l)), (t_uid T ++ dec i ++ u ":url").
    split; [|split; [auto|split]].
    + cbn [ps_shelf set_shelf]. etransitivity; [apply assoc_im|]. f_equal. cbn [ps_ref_index set_ref_cache set_ref_index]. fold token'. rewrite El.
      replace (is_empty token') with false; [reflexivity|]. unfold token'. destruct (t_uid T); [|reflexivity]. cbn [app].
      destruct (dec_spec (i + 1)) as (Hne & _). destruct (dec (i + 1)); [congruence|reflexivity].
    + exists i. split; [auto|]. cbn [ps_ref_cache set_ref_cache set_ref_index set_shelf ps_ref_index]. rewrite assocN_nm_other by lia. rewrite <- shown_html. apply assocN_nm.
    + exists token'. split; [|reflexivity]. exists (i + 1). split; [reflexivity|]. cbn [ps_ref_cache set_ref_cache set_ref_index set_shelf ps_ref_index]. rewrite <- shown_html. apply assocN_nm.
  - inversion H6; subst o s6; clear H6. exists src, None, s3, s3. split; [auto|]. split; [auto|]. exists l, (img_tag l), (t_uid T ++ dec i ++ u ":url").
    split; [|split; [auto|split; [|auto]]].
    + cbn [ps_shelf set_shelf]. etransitivity; [apply assoc_im|]. f_equal. exact El.
    + exists i. split; [auto|]. cbn [ps_ref_cache set_ref_cache set_ref_index set_shelf ps_ref_index]. rewrite <- shown_html. apply assocN_nm.
Qed.
