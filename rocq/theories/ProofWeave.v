(** Symbolic matching before a known character; texts with tags in the glyph phase. *)
From Verif Require Import Str Unicode Regex RegexParse RegexSnips RegexTheory RegexAuto RegexGroups Lib ModelBase ModelHtml ModelUrl
  ModelAttrs ModelInline ModelParser SpecRegex ProofRegex SpecParse ProofParse ProofLinks ProofDoc SpecPlain ProofPlain SpecNewlines ProofNewlines ProofParas ProofTags.
#[local] Arguments u : simpl never.

(** ** Expressions before a known character: failing, or matching nothing *)
Definition peeks (r : re) : bool := match r with RNLook _ | RAssert _ => true | _ => false end.
Lemma peeks_ok r s k : peeks r = true -> m r s k = None \/ m r s k = k s.
Proof. destruct r; try discriminate; intros _; [rewrite m_nlook|destruct s; rewrite m_assert; destruct (assert_holds _ _ _); auto]. destruct (m r s _); auto. Qed.
Fixpoint verdict (r : re) (x : N) : bool * bool :=
  match r with
  | REps => (false, true)
  | RCls k => (negb (in_cls k x), false)
  | RSeq a b => let (d, s) := verdict a x in let (d', s') := verdict b x in (d || ((s || peeks a) && d'), s && s')
  | RAlt a b => let (d, s) := verdict a x in let (d', s') := verdict b x in (d && d', (d && s') || (s && d') || (s && s'))
  | RStar _ a => let (d, s) := verdict a x in (false, d)
  | RGroup _ a => (fst (verdict a x), false)
  | RBackref _ => (false, false)
  | RLook a => (fst (verdict a x), false)
  | RNLook a => (false, fst (verdict a x))
  | RBack _ => (false, false)
  | RAssert EOT => (true, false)
  | RAssert _ => (false, false)
  end.
Definition dead (r : re) (x : N) : bool := fst (verdict r x).
Definition skips (r : re) (x : N) : bool := snd (verdict r x).
Lemma verdict_ok r : forall x before rest cs,
  (dead r x = true -> forall k, m r (mk_mst before (x :: rest) cs) k = None) /\
  (skips r x = true -> forall k, m r (mk_mst before (x :: rest) cs) k = k (mk_mst before (x :: rest) cs)).
Proof.
  unfold dead, skips.
  induction r as [ |c|a IHa b IHb|a IHa b IHb|g a IHa|n a IHa|n|a IHa|a IHa|c|a]; intros x before rest cs; cbn [verdict].
  - split; [discriminate|reflexivity].
  - split; [|discriminate]. cbn [fst]. intros H k. rewrite m_cls. apply negb_true_iff in H. rewrite H. reflexivity.
  - specialize (IHa x before rest cs). specialize (IHb x before rest cs). destruct (verdict a x) as [d s], (verdict b x) as [d' s']. cbn [fst snd] in *.
    destruct IHa as [A1 A2], IHb as [B1 B2]. split; intros H k; rewrite m_seq.
    + apply orb_prop in H as [H|H]; [auto|]. apply andb_prop in H as [H1 H2]. apply orb_prop in H1 as [H1|H1]; [rewrite A2 by auto; auto|]. destruct (peeks_ok a (mk_mst before (x :: rest) cs) (fun s2 => m b s2 k) H1) as [-> | ->]; auto.
    + apply andb_prop in H as [H1 H2]. rewrite A2 by auto. auto.
  - specialize (IHa x before rest cs). specialize (IHb x before rest cs). destruct (verdict a x) as [d s], (verdict b x) as [d' s']. cbn [fst snd] in *.
    destruct IHa as [A1 A2], IHb as [B1 B2]. split; intros H k; rewrite m_alt.
    + apply andb_prop in H as [H1 H2]. rewrite A1, B1 by auto. reflexivity.
    + apply orb_prop in H as [H|H]; [apply orb_prop in H as [H|H]|]; apply andb_prop in H as [H1 H2].
      * rewrite A1 by auto. auto.
      * rewrite A2, B1 by auto. destruct (k _); reflexivity.
      * rewrite A2, B2 by auto. destruct (k _); reflexivity.
  - specialize (IHa x before rest cs). destruct (verdict a x) as [d s]. cbn [fst snd] in *. split; [discriminate|]. intros H k. rewrite m_star. cbn [m_after].
    rewrite star_loop_cons. rewrite (proj1 IHa H). destruct g; [reflexivity|]. destruct (k _); reflexivity.
  - specialize (IHa x before rest cs). destruct (verdict a x) as [d s]. cbn [fst snd] in *. split; [|discriminate]. intros H k. rewrite m_group. apply IHa. exact H.
  - split; discriminate.
  - specialize (IHa x before rest cs). destruct (verdict a x) as [d s]. cbn [fst snd] in *. split; [|discriminate]. intros H k. rewrite m_look, (proj1 IHa H). reflexivity.
  - specialize (IHa x before rest cs). destruct (verdict a x) as [d s]. cbn [fst snd] in *. split; [discriminate|]. intros H k. rewrite m_nlook, (proj1 IHa H). reflexivity.
  - split; discriminate.
  - destruct a; cbn [fst snd]; (split; [try discriminate|discriminate]). intros _ k. reflexivity.
Qed.
Lemma m_dead r x before rest cs k : dead r x = true -> m r (mk_mst before (x :: rest) cs) k = None.
Proof. intros H. apply (proj1 (verdict_ok r x before rest cs) H). Qed.
Lemma m_skip r x before rest cs k : skips r x = true -> m r (mk_mst before (x :: rest) cs) k = k (mk_mst before (x :: rest) cs).
Proof. intros H. apply (proj2 (verdict_ok r x before rest cs) H). Qed.
(** A lazy loop gives up at the first place where the rest matches. *)
Lemma m_star_lazy c k y : forall w before rest cs, forallb (in_cls c) w = true ->
  (forall w1 x w2, w = w1 ++ x :: w2 -> k (mk_mst (rev w1 ++ before) (x :: w2 ++ rest) cs) = None) ->
  k (mk_mst (rev w ++ before) rest cs) = Some y ->
  m (RStar false (RCls c)) (mk_mst before (w ++ rest) cs) k = Some y.
Proof.
  intros w before rest cs Hw Hn Hk. rewrite m_star. cbn [m_after].
  assert (G : forall w f before, forallb (in_cls c) w = true ->
              (forall w1 x w2, w = w1 ++ x :: w2 -> k (mk_mst (rev w1 ++ before) (x :: w2 ++ rest) cs) = None) ->
              k (mk_mst (rev w ++ before) rest cs) = Some y -> (List.length w <= List.length f)%nat ->
              star_loop false (RCls c) k f (mk_mst before (w ++ rest) cs) = Some y).
  { clear Hw Hk Hn w before. induction w as [|x w IH]; intros f before Hw Hn Hk Hlen.
    - destruct f as [|z f]; [exact Hk|]. rewrite star_loop_cons. cbn [app]. cbn [rev app] in Hk. rewrite Hk. reflexivity.
    - destruct f as [|z f]; [cbn in Hlen; lia|]. rewrite star_loop_cons. cbn [app]. pose proof (Hn [] x w eq_refl) as E. cbn [rev app] in E. rewrite E. rewrite m_cls.
      cbn [forallb] in Hw. apply andb_true_iff in Hw as [Hx Hw]. rewrite Hx. apply IH; auto.
      + intros w1 x0 w2 E2. specialize (Hn (x :: w1) x0 w2). cbn [rev app] in Hn. rewrite <- app_assoc in Hn. apply Hn. rewrite E2. reflexivity.
      + cbn [rev] in Hk. rewrite <- app_assoc in Hk. exact Hk.
      + cbn in Hlen. lia. }
  apply G; auto. rewrite app_length; lia.
Qed.

(** ** Runs over known words *)
Definition next_states (A : auto) (qs : list nat) (c : N) : list nat :=
  flat_map (fun d => let '(q, cl, q') := d in if mem q qs && in_cls cl c then [q'] else []) (au_trans A).
Fixpoint walk (A : auto) (qs : list nat) (w : str) : list nat :=
  match w with [] => qs | c :: w' => walk A (next_states A qs c) w' end.
Lemma walk_ok A q' rest : Suf A q' rest -> forall w qs, mem q' (walk A qs w) = true -> exists q, In q qs /\ Suf A q (w ++ rest).
Proof.
  intros H. induction w as [|c w IH]; intros qs E; cbn [walk] in E; [exists q'; split; [apply mem_in; exact E|exact H]|].
  apply IH in E as (q1 & H1 & H2). unfold next_states in H1. apply in_flat_map in H1 as (((q, cl), q2) & Hd & H1).
  destruct (mem q qs && in_cls cl c)%bool eqn:E; [|destruct H1]. destruct H1 as [->|[]]. apply andb_prop in E as [E1 E2].
  exists q. split; [apply mem_in; exact E1|]. cbn [app]. econstructor; eauto.
Qed.
Lemma walk_to A q q' w rest : mem q' (walk A [q] w) = true -> Suf A q' rest -> Suf A q (w ++ rest).
Proof. intros E H. destruct (walk_ok A q' rest H w [q] E) as (p & [<-|[]] & Hp). exact Hp. Qed.

(** ** Tags and the text between them *)
Definition only (c : N) (l : cls) : bool := negb (may l (mk_cls true [CRange c c])).
Lemma only_ok c l x : only c l = true -> in_cls l x = true -> x = c.
Proof.
  unfold only. intros H Hx. destruct (N.eqb_spec x c) as [->|Hn]; auto. apply negb_true_iff in H. rewrite (may_ok l (mk_cls true [CRange c c]) x) in H; [discriminate|exact Hx|].
  unfold in_cls. cbn [c_neg c_items existsb in_item]. rewrite orb_false_r. apply N.eqb_neq in Hn.
  destruct ((c <=? x) && (x <=? c)) eqn:E; [|reflexivity]. apply andb_prop in E as [E1 E2]. apply N.leb_le in E1, E2. apply N.eqb_neq in Hn. lia.
Qed.
Definition tag_first : cls := Eval vm_compute in match rx_re GLYPH_SPLITTER_RE with RGroup _ (RSeq _ (RSeq (RCls k) _)) => k | _ => mk_cls false [] end.
Definition not_newline : cls := mk_cls true [CRange 10 10].
Lemma splitter_shape : rx_re GLYPH_SPLITTER_RE = RGroup 1 (RSeq (RCls (one 60)) (RSeq (RCls tag_first) (RSeq (RStar false (RCls not_newline)) (RCls (one 62))))).
Proof. reflexivity. Qed.
Definition not_cls (k : cls) : cls := mk_cls (negb (c_neg k)) (c_items k).
Lemma in_not k x : in_cls (not_cls k) x = negb (in_cls k x).
Proof. unfold in_cls, not_cls. cbn [c_neg c_items]. destruct (c_neg k), (existsb _ _); reflexivity. Qed.
Definition within (l k : cls) : bool := negb (may l (not_cls k)).
Lemma within_ok l k x : within l k = true -> in_cls l x = true -> in_cls k x = true.
Proof.
  unfold within. intros H Hx. destruct (in_cls k x) eqn:E; auto. apply negb_true_iff in H. rewrite (may_ok l (not_cls k) x) in H; [discriminate|exact Hx|]. rewrite in_not, E. reflexivity.
Qed.
Section Tagged.
Variables (A : auto) (tg : list nat).
(** The text between two tags, from state [q0]. *)
Definition chunk_from (q0 : nat) : auto := mk_auto
  (filter (fun tr => let '(q, _, q') := tr in negb (mem q tg) && negb (mem q' tg)) (au_trans A)) q0
  (nodup Nat.eq_dec (au_final A ++ flat_map (fun tr => let '(q, _, q') := tr in if mem q tg then [] else if mem q' tg then [q] else []) (au_trans A))).
Definition entries : list nat :=
  nodup Nat.eq_dec (au_start A :: flat_map (fun tr => let '(q, _, q') := tr in if mem q tg && negb (mem q' tg) then [q'] else []) (au_trans A)).
Definition tagged : bool :=
  forallb (fun tr => let '(q, l, q') := tr in
    if mem q tg then (if mem q' tg then negb (in_cls l 62) && negb (in_cls l 10) else only 62 l)
    else if mem q' tg then only 60 l && forallb (fun tr' => let '(q1, l', q2) := tr' in if Nat.eqb q1 q' then mem q2 tg && within l' tag_first else true) (au_trans A)
    else negb (in_cls l 60) && negb (in_cls l 62)) (au_trans A)
  && forallb (fun q => negb (mem q tg)) (au_start A :: au_final A)
  && forallb (fun q0 => let C := chunk_from q0 in forallb (fun r => never C (rx_re r)) GLYPH_RX) entries.
Hypothesis ok : tagged = true.
Lemma parts : (forall q l q', In (q, l, q') (au_trans A) ->
    if mem q tg then (if mem q' tg then negb (in_cls l 62) && negb (in_cls l 10) = true else only 62 l = true)
    else if mem q' tg then only 60 l = true /\ (forall l' q2, In (q', l', q2) (au_trans A) -> mem q2 tg = true /\ within l' tag_first = true)
    else negb (in_cls l 60) && negb (in_cls l 62) = true) /\
  (forall q, In q (au_start A :: au_final A) -> mem q tg = false) /\
  (forall q0 r, In q0 entries -> In r GLYPH_RX -> never (chunk_from q0) (rx_re r) = true).
Proof.
  unfold tagged in ok. apply andb_prop in ok as [H H3]. apply andb_prop in H as [H1 H2]. split; [|split].
  - intros q l q' Hi. rewrite forallb_forall in H1. specialize (H1 _ Hi). cbv beta iota in H1. destruct (mem q tg); [destruct (mem q' tg); exact H1|].
    destruct (mem q' tg); [|exact H1]. apply andb_prop in H1 as [H1 H4]. split; [exact H1|]. intros l' q2 Hi2. rewrite forallb_forall in H4. specialize (H4 _ Hi2). cbv beta iota in H4.
    rewrite Nat.eqb_refl in H4. apply andb_prop in H4. exact H4.
  - intros q Hq. rewrite forallb_forall in H2. specialize (H2 q Hq). apply negb_true_iff in H2. exact H2.
  - intros q0 r Hq Hr. rewrite forallb_forall in H3. specialize (H3 q0 Hq). cbv zeta in H3. rewrite forallb_forall in H3. apply H3. exact Hr.
Qed.
(** The rest of a tag. *)
Lemma tag_rest q t : Suf A q t -> mem q tg = true -> exists w t' q', t = w ++ 62 :: t' /\ forallb (fun c => negb (c =? 62) && negb (c =? 10)) w = true /\
  Suf A q' t' /\ mem q' tg = false /\ In q' entries.
Proof.
  destruct parts as (P1 & P2 & _). intros H. induction H as [q Hf|q k q' c t Ht Hc Hs IH]; intros Hq.
  - rewrite (P2 q) in Hq by (right; exact Hf). discriminate.
  - specialize (P1 _ _ _ Ht). rewrite Hq in P1. destruct (mem q' tg) eqn:E'.
    + destruct (IH eq_refl) as (w & t' & q2 & -> & Hw & Hs2 & Hq2 & Hi). exists (c :: w), t', q2. split; [reflexivity|]. split; [|auto]. cbn [forallb]. rewrite Hw, andb_true_r.
      apply andb_prop in P1 as [P1 P3]. apply negb_true_iff in P1, P3. apply andb_true_intro. split; apply negb_true_iff; apply N.eqb_neq; intros ->; congruence.
    + pose proof (only_ok _ _ _ P1 Hc) as ->. exists [], t, q'. repeat split; auto. apply nodup_In. right. apply in_flat_map. eexists. split; [exact Ht|]. cbv beta iota. rewrite Hq, E'. left. reflexivity.
Qed.
Lemma splitter_miss before c rest : c <> 60 -> match_at (rx_re GLYPH_SPLITTER_RE) before (c :: rest) = None.
Proof. intros H. unfold match_at. rewrite splitter_shape, m_group, m_seq, m_cls, in_one. apply N.eqb_neq in H. rewrite H. reflexivity. Qed.
Lemma splitter_hit before c w rest : in_cls tag_first c = true -> forallb (fun c => negb (c =? 62) && negb (c =? 10)) w = true ->
  exists s, match_at (rx_re GLYPH_SPLITTER_RE) before ((60 :: c :: w ++ [62]) ++ rest) = Some s /\ m_after s = rest /\
  m_caps s = [(1%nat, ((60 :: c :: w ++ [62]) ++ rest, rest))].
Proof.
  intros Hc Hw. eexists. split; [|split].
  - unfold match_at. rewrite splitter_shape, m_group, m_seq. cbn [app]. rewrite m_cls. cbn [in_one]. rewrite in_one, N.eqb_refl. rewrite m_seq, m_cls, Hc, m_seq.
    rewrite <- app_assoc. apply m_star_lazy.
    + rewrite forallb_forall in *. intros x Hx. specialize (Hw x Hx). apply andb_prop in Hw as [_ Hw]. unfold in_cls, not_newline. cbn [c_neg c_items existsb in_item].
      rewrite orb_false_r. destruct ((10 <=? x) && (x <=? 10)) eqn:E; [|reflexivity]. apply andb_prop in E as [E1 E2]. apply N.leb_le in E1, E2.
      assert (x = 10) as -> by lia. discriminate.
    + intros w1 x w2 ->. rewrite m_cls, in_one. rewrite forallb_app in Hw. apply andb_prop in Hw as [_ Hw]. cbn [forallb] in Hw. apply andb_prop in Hw as [Hw _]. apply andb_prop in Hw as [Hw _].
      apply negb_true_iff in Hw. rewrite Hw. reflexivity.
    + cbn [app]. rewrite m_cls, in_one, N.eqb_refl. cbn [m_before m_after m_caps]. reflexivity.
  - reflexivity.
  - cbn [m_caps app]. rewrite <- app_assoc. reflexivity.
Qed.
Variable T : textile.
Lemma weave : forall n t q, (List.length t <= n)%nat -> Suf A q t -> mem q tg = false -> forall acc q0 before last, In q0 entries ->
  (forall y, Suf (chunk_from q0) q y -> Suf (chunk_from q0) q0 (rev acc ++ y)) ->
  exists ps, split_go 2 (scan (rx_re GLYPH_SPLITTER_RE) before t O last) acc = Some ps /\ List.concat (glyph_chunks T true ps) = rev acc ++ t.
Proof.
  destruct parts as (P1 & P2 & P3). 
  assert (C : forall q0 x, In q0 entries -> accepts (chunk_from q0) x -> glyph_chunk T x = x).
  { intros q0 x Hq Hx. apply chunk_inert; [intros r Hr; eapply never_ok; [exact Hx|apply P3; auto]| |]; clear - Hx P1.
    - unfold accepts in Hx. change (au_start (chunk_from q0)) with q0 in Hx. induction Hx as [q Hf|q k q' c t Ht Hc Hs IH]; [intros []|]. intros [->|F]; [|exact (IH F)].
      cbn [chunk_from au_trans] in Ht. apply filter_In in Ht as [Ht Hm]. specialize (P1 _ _ _ Ht). apply andb_prop in Hm as [M1 M2]. apply negb_true_iff in M1, M2. rewrite M1, M2 in P1.
      apply andb_prop in P1 as [P1 _]. rewrite Hc in P1. discriminate.
    - unfold accepts in Hx. change (au_start (chunk_from q0)) with q0 in Hx. induction Hx as [q Hf|q k q' c t Ht Hc Hs IH]; [intros []|]. intros [->|F]; [|exact (IH F)].
      cbn [chunk_from au_trans] in Ht. apply filter_In in Ht as [Ht Hm]. specialize (P1 _ _ _ Ht). apply andb_prop in Hm as [M1 M2]. apply negb_true_iff in M1, M2. rewrite M1, M2 in P1.
      apply andb_prop in P1 as [_ P1]. rewrite Hc in P1. discriminate. }
  induction n as [|n IH]; intros t q Hlen H Hq acc q0 before last Hq0 Hacc; destruct t as [|c t]; try (cbn in Hlen; lia).
  1,2: inversion H; subst; rewrite scan_nil; assert (match_at (rx_re GLYPH_SPLITTER_RE) before [] = None) as -> by reflexivity;
    exists [rev acc]; (split; [destruct last; reflexivity|]); cbn [glyph_chunks List.concat]; rewrite (C q0); auto; specialize (Hacc []); rewrite app_nil_r in Hacc; apply Hacc; constructor; cbn [chunk_from au_final]; apply nodup_In, in_or_app; left; assumption.
  inversion H as [|q1 l q' c1 t1 Ht Hc Hs]; subst. pose proof (P1 _ _ _ Ht) as P. rewrite Hq in P. destruct (mem q' tg) eqn:E'.
  - destruct P as [P4 P5]. pose proof (only_ok _ _ _ P4 Hc) as ->. inversion Hs as [q1 Hf|q1 l1 q2 d t2 Ht2 Hc2 Hs2]; subst; [rewrite (P2 q') in E' by (right; exact Hf); discriminate|].
    destruct (P5 _ _ Ht2) as [P6 P7]. destruct (tag_rest q2 t2 Hs2 P6) as (w & t' & q3 & -> & Hw & Hs3 & Hq3 & Hi3).
    destruct (splitter_hit before d w t' (within_ok _ _ _ P7 Hc2) Hw) as (s & M1 & M2 & M3).
    assert (E : 60 :: d :: w ++ 62 :: t' = (60 :: d :: w ++ [62]) ++ t') by (cbn [app]; rewrite <- app_assoc; reflexivity). rewrite E.
    rewrite (scan_take _ before (60 :: d :: w ++ [62]) t' s last) by (auto; discriminate).
    destruct (IH t' q3 ltac:(cbn [List.length] in Hlen; rewrite app_length in Hlen; cbn [List.length] in Hlen; lia) Hs3 Hq3 [] q3 (rev (60 :: d :: w ++ [62]) ++ before) true Hi3) as (ps & E1 & E2).
    { intros y Hy. exact Hy. }
    cbn [split_go]. change (2 - 1)%nat with 1%nat. cbn [seq map forallb]. unfold mk_hit_of. cbn [h_caps]. rewrite M3. unfold cap_text. cbn [find_cap Nat.eqb option_map]. cbn [andb]. 
    rewrite E1. eexists. split; [reflexivity|]. cbn [map app glyph_chunks negb List.concat]. rewrite E2. cbn [rev app].
    rewrite (C q0); auto.
    + f_equal. change (60 :: d :: (w ++ [62]) ++ t') with ((60 :: d :: w ++ [62]) ++ t'). rewrite cap_str_app. reflexivity.
    + specialize (Hacc []). rewrite app_nil_r in Hacc. apply Hacc. constructor. cbn [chunk_from au_final]. apply nodup_In, in_or_app. right. apply in_flat_map.
      eexists. split; [exact Ht|]. cbv beta iota. rewrite Hq, E'. left. reflexivity.
  - rewrite scan_cons, splitter_miss. 2:{ intros ->. rewrite Hc in P. discriminate. }
    cbn [split_go]. destruct (IH t q' ltac:(cbn in Hlen; lia) Hs E' (c :: acc) q0 (c :: before) false Hq0) as (ps & E1 & E2).
    { intros y Hy. cbn [rev]. rewrite <- app_assoc. apply Hacc. cbn [app]. econstructor; [|exact Hc|exact Hy]. cbn [chunk_from au_trans]. apply filter_In. split; [exact Ht|].
      cbv beta iota. rewrite Hq, E'. reflexivity. }
    exists ps. split; [exact E1|]. rewrite E2. cbn [rev]. rewrite <- app_assoc. reflexivity.
Qed.
Lemma glyphs_weave t : accepts A t -> trim_end_matches 10 t = t -> forall s, glyphs T t s = Ret t s.
Proof.
  intros H Et s. unfold glyphs. rewrite Et. destruct parts as (_ & P2 & _).
  destruct (weave (List.length t) t (au_start A) (le_n _) H (P2 _ (or_introl eq_refl)) [] (au_start A) [] false (proj2 (nodup_In Nat.eq_dec _ _) (in_eq _ _)) (fun y Hy => Hy)) as (ps & E1 & E2).
  unfold splitM, split_rx, segs. change (rx_len GLYPH_SPLITTER_RE) with 2%nat. rewrite E1. unfold of_opt, bind, ret. rewrite E2. reflexivity.
Qed.
End Tagged.
