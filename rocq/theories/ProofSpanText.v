(** Spans of plain words: what the stages of the parser make of them. *)
From Verif Require Import Str Unicode Regex RegexParse RegexSnips RegexTheory RegexAuto RegexGroups Lib ModelBase ModelHtml ModelAttrs ModelInline SpecRegex ProofRegex
  SpecParse ProofParse SpecPlain ProofPlain ProofState ProofDoc ProofNewlines ProofParas ProofTags ProofWeave ProofSpan ProofMemory ProofCache ProofLinks ProofDocument ProofBlocks ProofSections ProofText ProofSpanRe.
#[local] Arguments u : simpl never.

(** ** Replacing the matches one by one *)
Definition yields (r : re) (F : hit -> M str) (before text : str) (s : pstate) (out : str) (s' : pstate) : Prop :=
  forall last, exists l, mapM (replace_segM F) (scan r before text O last) s = Ret l s' /\ List.concat l = out.
Lemma yields_nil r F before s : match_at r before [] = None -> yields r F before [] s [] s.
Proof. intros H last. rewrite scan_nil. rewrite H. exists []. destruct last; split; reflexivity. Qed.
Lemma mapM_app {A B} (f : A -> M B) l1 l2 s v1 s1 v2 s2 : mapM f l1 s = Ret v1 s1 -> mapM f l2 s1 = Ret v2 s2 -> mapM f (l1 ++ l2) s = Ret (v1 ++ v2) s2.
Proof.
  revert s v1. induction l1 as [|a l1 IH]; intros s v1 H1 H2; cbn [mapM app] in *.
  - unfold ret in H1. inversion H1; subst. exact H2.
  - unfold bind in *. destruct (f a s) as [b s0| |] eqn:E; try discriminate. destruct (mapM f l1 s0) as [v s3| |] eqn:E1; try discriminate. unfold ret in H1. inversion H1; subst.
    rewrite (IH s0 v E1 H2). reflexivity.
Qed.
Lemma mapM_lits F w s : mapM (replace_segM F) (map Lit w) s = Ret (map (fun c => [c]) w) s.
Proof. induction w as [|c w IH]; [reflexivity|]. cbn [map mapM]. unfold bind at 1. cbn [replace_segM]. unfold ret at 1. unfold bind. rewrite IH. reflexivity. Qed.
Lemma concat_single {A} (w : list A) : List.concat (map (fun c => [c]) w) = w.
Proof. induction w as [|c w IH]; [reflexivity|]. cbn [map List.concat app]. rewrite IH. reflexivity. Qed.
Lemma yields_pass r F w before rest s out s' : (forall a c b, w = a ++ c :: b -> match_at r (rev a ++ before) (c :: b ++ rest) = None) ->
  yields r F (rev w ++ before) rest s out s' -> yields r F before (w ++ rest) s (w ++ out) s'.
Proof.
  intros H Hy last. destruct w as [|c w]; [apply Hy|]. rewrite scan_pass by (auto; discriminate). destruct (Hy false) as (l & E & <-).
  eexists. split; [eapply mapM_app; [apply mapM_lits|exact E]|]. rewrite concat_app, concat_single. reflexivity.
Qed.
Lemma yields_hit r F w before rest st s y s1 out s' : w <> [] -> match_at r before (w ++ rest) = Some st -> m_after st = rest -> F (mk_hit_of (w ++ rest) st) s = Ret y s1 ->
  yields r F (rev w ++ before) rest s1 out s' -> yields r F before (w ++ rest) s (y ++ out) s'.
Proof.
  intros Hw Hm Ha HF Hy last. rewrite (scan_take r before w rest st) by auto. destruct (Hy true) as (l & E & <-). exists (y :: l). split; [|reflexivity].
  cbn [mapM replace_segM]. unfold bind. rewrite HF, E. reflexivity.
Qed.
Lemma yields_all r F text s out s' : yields r F [] text s out s' -> replace_allM r F text s = Ret out s'.
Proof. intros H. destruct (H false) as (l & E & <-). unfold replace_allM, segs, bind. rewrite E. reflexivity. Qed.

(** ** The text between and after the stages *)
Definition marks : list (N * bool) := [(42, true); (42, false); (63, true); (45, false); (95, true); (95, false); (37, false); (43, false); (126, false); (94, false)].
Definition mark_at (n : nat) : N * bool := nth n marks (42, false).
Definition mark_of (n : nat) : str := mk (fst (mark_at n)) (snd (mark_at n)).
Definition mark_re (n : nat) : re := mk_re (fst (mark_at n)) (snd (mark_at n)).
Definition tags : list str := [u "b"; u "strong"; u "cite"; u "del"; u "i"; u "em"; u "span"; u "ins"; u "sub"; u "sup"].
Definition tag_of (n : nat) : str := nth n tags [].
Definition mark_good (n : nat) : Prop :=
  In (fst (mark_at n)) mark_chars /\ (snd (mark_at n) = true -> fst (mark_at n) = 42 \/ fst (mark_at n) = 63 \/ fst (mark_at n) = 95) /\ (snd (mark_at n) = false -> fst (mark_at n) <> 63).
Lemma marks_good n : (n < 10)%nat -> mark_good n.
Proof.
  intros H. unfold mark_good. do 10 (destruct n as [|n]; [cbn; repeat split; try (intros; discriminate); intros; auto 12|]). lia.
Qed.
Lemma patterns_marks : map rx_re TAG_PATTERNS = map mark_re (seq 0 10).
Proof. rewrite patterns_shape. reflexivity. Qed.

Inductive item := Src (n : nat) (w : str) | Tok (i : N) (w : str).
Definition free (c : N) : bool := negb (existsb (N.eqb c) (123 :: 91 :: mark_chars)).
Lemma among_in c l : existsb (N.eqb c) l = true <-> In c l.
Proof. rewrite existsb_exists. split; [intros (x & H & E); apply N.eqb_eq in E; subst; exact H|intros H; exists c; split; [exact H|apply N.eqb_refl]]. Qed.
Lemma free_ne c d : free c = true -> In d (123 :: 91 :: mark_chars) -> c =? d = false.
Proof. intros H Hd. destruct (N.eqb_spec c d) as [->|]; [|reflexivity]. unfold free in H. rewrite (proj2 (among_in _ _) Hd) in H. discriminate. Qed.
(** What stands around the spans. *)
Definition calm (t : str) : Prop := forall a x b, t = a ++ x :: b ->
  free x = true \/ (x = 45 /\ exists a' d, a = a' ++ [d] /\ in_cls before_cls d = false) \/ (x = 63 /\ match b with [] => True | y :: _ => y <> 63 end).
Definition closes (t : str) : Prop := exists a d, t = a ++ [d] /\ (d = 32 \/ d = 10).
Section Stage.
Variable T : textile.
Definition open_token (i : N) : str := t_uid T ++ dec i ++ u ":ospan ".
Definition close_token (i : N) : str := u " " ++ t_uid T ++ dec i ++ u ":cspan".
Definition item_text (it : item) : str :=
  match it with Src n w => mark_of n ++ w ++ mark_of n | Tok i w => open_token i ++ w ++ close_token (i + 1) end.
Definition render (l : list (item * str)) : str := flat_map (fun p => item_text (fst p) ++ snd p) l.
Definition item_ok (n : nat) (it : item) : Prop := match it with Src m w => (n <= m < 10)%nat /\ word_text w | Tok _ w => word_text w end.
Fixpoint flow (n : nat) (l : list (item * str)) : Prop :=
  match l with
  | [] => True
  | (it, t) :: l' => item_ok n it /\ calm t /\ follows t /\ (l' <> [] -> closes t) /\ flow n l'
  end.
Hypothesis uid_free : forallb free (t_uid T) = true.

Lemma miss_free n before x rest : mark_good n -> free x = true -> match_at (mark_re n) before (x :: rest) = None.
Proof.
  intros (H1 & H2 & H3) Hx. apply mark_miss; auto; try (apply free_ne; [exact Hx|cbn [In]; tauto]). left.
  assert (x =? fst (mark_at n) = false) as E by (apply free_ne; [exact Hx|right; right; exact H1]). rewrite N.eqb_sym in E. unfold mk. destruct (snd (mark_at n)); cbn [starts_with]; rewrite E; reflexivity.
Qed.
Lemma pass_free n before w rest : mark_good n -> forallb free w = true -> forall a c b, w = a ++ c :: b -> match_at (mark_re n) (rev a ++ before) (c :: b ++ rest) = None.
Proof. intros Hn Hw a c b ->. apply miss_free; auto. rewrite forallb_app in Hw. apply andb_prop in Hw as [_ Hw]. cbn [forallb] in Hw. apply andb_prop in Hw as [Hw _]. exact Hw. Qed.
Lemma pass_calm n before t rest : mark_good n -> calm t -> rest = [] \/ closes t -> forall a c b, t = a ++ c :: b -> match_at (mark_re n) (rev a ++ before) (c :: b ++ rest) = None.
Proof.
  intros Hn Ht Hr a c b E. destruct (Ht a c b E) as [H|[(-> & a' & d & -> & Hd)|(-> & Hb)]]; [apply miss_free; auto| |]; destruct Hn as (H1 & H2 & H3); apply mark_miss; auto.
  - right. rewrite rev_app_distr. cbn [rev app]. eauto.
  - left. unfold mk. destruct (snd (mark_at n)) eqn:E2; cbn [starts_with].
    + destruct b as [|y b].
      * destruct Hr as [->|(z & d & Ez & Hd)]; [cbn [app starts_with]; apply andb_false_r|]. rewrite Ez in E. apply app_inj_tail in E as [_ ->]. destruct Hd; discriminate.
      * cbn [app starts_with]. rewrite andb_true_r. destruct (N.eqb_spec (fst (mark_at n)) 63) as [e|]; [|reflexivity]. rewrite e. cbn [andb]. destruct (N.eqb_spec 63 y); congruence.
    + rewrite andb_true_r. specialize (H3 eq_refl). destruct (N.eqb_spec (fst (mark_at n)) 63); congruence.
Qed.
Lemma word_free w : word_text w -> forallb free w = true.
Proof.
  assert (K : forall c, wchar c || (c =? 32) = true -> free c = true).
  { intros c Hc. unfold free. destruct (existsb (N.eqb c) _) eqn:E; [|reflexivity]. exfalso. apply among_in in E. cbn [In mark_chars] in E. repeat (destruct E as [E|E]; [subst c; vm_compute in Hc; discriminate|]). destruct E. }
  intros [[_ H]|(x & v & y & -> & Hx & Hy & Hv & _)]; apply forallb_forall; intros c Hc; apply K.
  - rewrite forallb_forall in H. rewrite (H c Hc). reflexivity.
  - destruct Hc as [<-|Hc]; [rewrite Hx; reflexivity|]. apply in_app_or in Hc as [Hc|[<-|[]]]; [rewrite forallb_forall in Hv; auto|rewrite Hy; reflexivity].
Qed.
Lemma dec_free i : forallb free (dec i) = true.
Proof.
  destruct (dec_spec i) as (_ & H & _). rewrite forallb_forall in *. intros c Hc. specialize (H c Hc). unfold is_digit_ascii in H. apply andb_prop in H as [H1 H2]. apply N.leb_le in H1, H2.
  unfold free. destruct (existsb (N.eqb c) _) eqn:E; [|reflexivity]. exfalso. apply among_in in E. cbn [In mark_chars] in E. repeat (destruct E as [E|E]; [lia|]). destruct E.
Qed.
Lemma tok_free i w : word_text w -> forallb free (item_text (Tok i w)) = true.
Proof.
  intros Hw. cbn [item_text]. unfold open_token, close_token. rewrite !forallb_app, uid_free, !dec_free, (word_free w Hw). reflexivity.
Qed.
(** Marks of later stages. *)
Lemma marks_differ n k : (n < k < 10)%nat -> fst (mark_at n) <> fst (mark_at k) \/ (snd (mark_at n) = true /\ snd (mark_at k) = false).
Proof.
  intros H. do 10 (destruct k as [|k]; [do 10 (destruct n as [|n]; [cbn; try (exfalso; lia); (right; split; reflexivity) || (left; discriminate)|]); lia|]). lia.
Qed.
Lemma miss_mark n k before rest : (n < k < 10)%nat -> snd (mark_at k) = true \/ (match rest with y :: _ => y <> fst (mark_at k) | [] => True end) ->
  match_at (mark_re n) before (fst (mark_at k) :: rest) = None.
Proof.
  intros H Hr. destruct (marks_good n ltac:(lia)) as (H1 & H2 & H3). destruct (marks_good k ltac:(lia)) as (K1 & _ & _).
  assert (forall d, In d [123; 91] -> fst (mark_at k) =? d = false) as Q.
  { intros d Hd. apply N.eqb_neq. intros E. rewrite E in K1. cbn [In mark_chars] in *. repeat (destruct Hd as [Hd|Hd]; [subst d; intuition discriminate|]). destruct Hd. }
  apply mark_miss; auto; try (apply Q; cbn [In]; tauto). left. unfold mk. destruct (marks_differ n k H) as [D|(D1 & D2)].
  - apply N.eqb_neq in D. destruct (snd (mark_at n)); cbn [starts_with]; rewrite D; reflexivity.
  - rewrite D1. destruct Hr as [Hr|Hr]; [congruence|]. cbn [starts_with]. destruct (N.eqb_spec (fst (mark_at n)) (fst (mark_at k))) as [E|]; [|reflexivity]. cbn [andb]. destruct rest as [|y rest]; [reflexivity|].
    rewrite E. apply not_eq_sym in Hr. apply N.eqb_neq in Hr. rewrite Hr. reflexivity.
Qed.
Lemma pass_mark n k before rest : (n < k < 10)%nat -> (match rest with y :: _ => y <> fst (mark_at k) | [] => True end) ->
  forall a c b, mark_of k = a ++ c :: b -> match_at (mark_re n) (rev a ++ before) (c :: b ++ rest) = None.
Proof.
  intros H Hr a c b E. unfold mark_of, mk in E. destruct (snd (mark_at k)) eqn:E2.
  - assert (c = fst (mark_at k)) as -> by (destruct a as [|? [|? a]]; inversion E; try reflexivity; destruct a; discriminate). apply miss_mark; auto.
  - destruct a as [|? a]; [|destruct a; discriminate]. injection E as <- <-. apply miss_mark; auto.
Qed.
Lemma follows_head k rest : (k < 10)%nat -> follows rest -> match rest with y :: _ => y <> fst (mark_at k) | [] => True end.
Proof.
  intros Hk H. destruct (marks_good k Hk) as (K1 & _). destruct H as [->|[(d & r & -> & Hd)|(p & d & r & -> & Hp & _)]]; [exact I| |]; intros E; rewrite <- E in K1; cbn [In mark_chars] in K1.
  - destruct Hd as [-> | ->]; intuition discriminate.
  - change (In p [44; 58; 59; 33; 46]) in Hp. cbn [In] in Hp. clear E. repeat (destruct Hp as [Hp|Hp]; [subst p; clear - K1; intuition discriminate|]). destruct Hp.
Qed.
Lemma word_head_mark k w r : (k < 10)%nat -> word_text w -> match w ++ r with y :: _ => y <> fst (mark_at k) | [] => True end.
Proof.
  intros Hk H. destruct (marks_good k Hk) as (K1 & _). destruct (word_head w H) as (x & v & -> & Hx). cbn [app]. intros ->. rewrite (mark_wchar _ K1) in Hx. discriminate.
Qed.

(** ** One stage *)
Definition open_tag (n : nat) : str := u "<" ++ tag_of n ++ u ">".
Definition close_tag (n : nat) : str := u "</" ++ tag_of n ++ u ">".
Definition tagged (n : nat) (s : pstate) : pstate := after_ref (close_tag n) (after_ref (open_tag n) s).
Variable rec : str -> M str.
Hypothesis rec_words : forall w s, word_text w -> rec w s = Ret w s.
Lemma span_hit n w rest st s : (n < 10)%nat -> word_text w ->
  m_caps st = [(7%nat, (rest, rest)); (6%nat, (mark_of n ++ rest, mark_of n ++ rest)); (5%nat, (w ++ mark_of n ++ rest, mark_of n ++ rest)); (3%nat, (w ++ mark_of n ++ rest, w ++ mark_of n ++ rest));
     (2%nat, (mark_of n ++ w ++ mark_of n ++ rest, w ++ mark_of n ++ rest)); (1%nat, (mark_of n ++ w ++ mark_of n ++ rest, mark_of n ++ w ++ mark_of n ++ rest))] ->
  forall text, f_span T rec (mk_hit_of text st) s = Ret (item_text (Tok (ps_ref_index s + 1) w)) (tagged n s).
Proof.
  intros Hn Hw Hc text. assert (forall r : str, cap_str (r, r) = []) as E0 by (intros r; exact (cap_str_app [] r)).
  unfold f_span, capx, cap_or, cap_opt, mk_hit_of. cbn [h_caps]. rewrite Hc. unfold cap_text. cbn [find_cap Nat.eqb fst snd option_map]. rewrite !cap_str_app, !E0. cbn [of_opt]. rewrite bind_ret.
  assert (forall s, span_tag (mark_of n) s = Ret (tag_of n) s) as E1 by (intros s0; do 10 (destruct n as [|n]; [reflexivity|]); lia).
  unfold bind at 1. rewrite E1. rewrite bind_ret. unfold bind at 1. rewrite attrs_none. rewrite bind_ret. unfold bind at 1. rewrite rec_words by exact Hw. rewrite bind_ret.
  change (ba_html_attrs ba_default) with (@nil (str * str)). cbv zeta. change (get_special_options [] []) with (@nil N, @nil N). cbv iota.
  unfold bind. rewrite store_tags_eq. cbn [fst snd]. unfold ret. cbn [app].
  assert (join_html_attributes (u "<" ++ tag_of n) [] = u "<" ++ tag_of n) as -> by (unfold join_html_attributes; cbn [filter flat_map]; apply app_nil_r).
  unfold item_text, open_token, close_token, tagged, open_tag, close_tag. rewrite <- !app_assoc, ?app_nil_r. reflexivity.
Qed.
Inductive stepped (n : nat) : list (item * str) -> pstate -> list (item * str) -> pstate -> Prop :=
| st_nil s : stepped n [] s [] s
| st_skip it t l s l' s' : (forall w, it <> Src n w) -> stepped n l s l' s' -> stepped n ((it, t) :: l) s ((it, t) :: l') s'
| st_take w t l s l' s' : stepped n l (tagged n s) l' s' -> stepped n ((Src n w, t) :: l) s ((Tok (ps_ref_index s + 1) w, t) :: l') s'.
Lemma follows_app t x : follows t -> t <> [] -> follows (t ++ x).
Proof.
  intros [->|[(d & r & -> & Hd)|(p & d & r & -> & Hp & Hd)]] Hn; [congruence| |]; right; [left|right]; cbn [app]; repeat eexists; eauto.
Qed.
Lemma flow_follows n it t l : flow n ((it, t) :: l) -> follows (t ++ render l) /\ (render l = [] \/ closes t).
Proof.
  cbn [flow]. intros (_ & _ & H1 & H2 & _). destruct l as [|p l]; [cbn [render flat_map]; rewrite app_nil_r; auto|]. specialize (H2 ltac:(discriminate)). split; [|auto].
  apply follows_app; auto. destruct H2 as (a & d & -> & _). destruct a; discriminate.
Qed.
Lemma opens_closes t b : closes t -> opens (rev t ++ b).
Proof. intros (a & d & -> & Hd). right. rewrite rev_app_distr. cbn [rev app]. eauto. Qed.
Lemma stage_yields n : (n < 10)%nat -> forall l before s, (l = [] \/ opens before) -> flow n l ->
  exists l' s', stepped n l s l' s' /\ yields (mark_re n) (f_span T rec) before (render l) s (render l') s'.
Proof.
  intros Hn. pose proof (marks_good n Hn) as Hg. induction l as [|[it t] l IH]; intros before s Ho Hf.
  - exists [], s. split; [constructor|]. apply yields_nil. apply mark_nil; apply Hg.
  - pose proof (flow_follows n it t l Hf) as [Hr Hc]. cbn [flow] in Hf. destruct Hf as (Hi & Ht & _ & Hl & Hf). destruct Ho as [Ho|Ho]; [discriminate|].
    assert (IH' : forall b s, exists l' s', stepped n l s l' s' /\ yields (mark_re n) (f_span T rec) b (t ++ render l) s (t ++ render l') s').
    { intros b s0. destruct (IH (rev t ++ b) s0) as (l' & s' & H1 & H2); [|exact Hf|].
      - destruct l; [auto|]. right. apply opens_closes, Hl. discriminate.
      - exists l', s'. split; [exact H1|]. apply yields_pass; [|exact H2]. apply pass_calm; auto. }
    clear IH. assert (Er : forall it' l', render ((it', t) :: l') = item_text it' ++ t ++ render l') by (intros it' l'; unfold render; cbn [flat_map fst snd]; rewrite <- app_assoc; reflexivity).
    rewrite Er. destruct it as [k w|i w].
    + destruct Hi as [Hk Hw]. destruct (Nat.eq_dec k n) as [->|Hne].
      * destruct (IH' (rev (mark_of n ++ w ++ mark_of n) ++ before) (tagged n s)) as (l' & s' & H1 & H2). exists ((Tok (ps_ref_index s + 1) w, t) :: l'), s'.
        split; [constructor; exact H1|]. rewrite Er. pose proof Hg as (G1 & G2 & G3).
        pose proof (mark_hit _ _ G1 G2 G3 before w (t ++ render l) Ho Hw Hr) as Hm. fold (mark_of n) in Hm. fold (mark_re n) in Hm.
        eapply yields_hit; [| | |eapply span_hit with (w := w) (n := n) (rest := t ++ render l)|exact H2].
        -- cbn [item_text]. intros E. apply app_eq_nil in E as [_ E]. apply app_eq_nil in E as [E _]. destruct (word_head w Hw) as (? & ? & -> & _). discriminate.
        -- cbn [item_text]. rewrite <- !app_assoc. exact Hm.
        -- reflexivity.
        -- exact Hn.
        -- exact Hw.
        -- reflexivity.
      * destruct (IH' (rev (mark_of k) ++ rev w ++ rev (mark_of k) ++ before) s) as (l' & s' & H1 & H2). exists ((Src k w, t) :: l'), s'.
        split; [constructor; [congruence|exact H1]|]. rewrite Er. cbn [item_text]. rewrite <- !app_assoc.
        apply yields_pass; [apply pass_mark; [lia|apply word_head_mark; [lia|exact Hw]]|]. apply yields_pass; [apply pass_free; auto; apply word_free; auto|].
        apply yields_pass; [apply pass_mark; [lia|apply follows_head; [lia|exact Hr]]|]. exact H2.
    + destruct (IH' (rev (item_text (Tok i w)) ++ before) s) as (l' & s' & H1 & H2). exists ((Tok i w, t) :: l'), s'.
      split; [constructor; [congruence|exact H1]|]. rewrite Er. apply yields_pass; [apply pass_free; auto; apply tok_free; auto|exact H2].
Qed.
(** The text before the first span. *)
Lemma stage_text n a l s : (n < 10)%nat -> calm a -> (a = [] \/ closes a) -> flow n l ->
  exists l' s', stepped n l s l' s' /\ replace_allM (mark_re n) (f_span T rec) (a ++ render l) s = Ret (a ++ render l') s'.
Proof.
  intros Hn Ha Ho Hf. destruct (stage_yields n Hn l (rev a) s) as (l' & s' & H1 & H2); [|exact Hf|].
  - right. destruct Ho as [->|Ho]; [left; reflexivity|]. rewrite <- (app_nil_r (rev a)). apply opens_closes. exact Ho.
  - exists l', s'. split; [exact H1|]. apply yields_all. apply yields_pass.
    + destruct Ho as [->|Ho]; [intros [|] ? ? F; discriminate|]. apply pass_calm; auto. apply marks_good, Hn.
    + rewrite app_nil_r. exact H2.
Qed.
Lemma stepped_flow n : forall l s l' s', stepped n l s l' s' -> flow n l -> flow (S n) l'.
Proof.
  intros l s l' s' H. induction H as [s|it t l s l' s' Hi H IH|w t l s l' s' H IH]; intros Hf; [exact I| |]; cbn [flow] in *; destruct Hf as (F1 & F2 & F3 & F4 & F5).
  - repeat split; auto; [|intros Hn; apply F4; intros ->; inversion H; subst; congruence]. destruct it as [k w|i w]; [|exact F1]. destruct F1 as [F1 F6]. split; [|exact F6].
    assert (k <> n) by (intros ->; exact (Hi w eq_refl)). lia.
  - repeat split; auto; [apply F1|]. intros Hn. apply F4. intros ->. inversion H; subst; congruence.
Qed.

(** ** All stages *)
Lemma stages_text a : calm a -> (a = [] \/ closes a) -> forall m n l s, (n + m = 10)%nat -> flow n l ->
  exists l' s', (forall P : list (item * str) -> pstate -> Prop, (forall n l s l' s', stepped n l s l' s' -> P l s -> P l' s') -> P l s -> P l' s') /\ flow 10 l' /\
    foldM (fun t r => replace_allM r (f_span T rec) t) (a ++ render l) (map mark_re (seq n m)) s = Ret (a ++ render l') s'.
Proof.
  intros Ha Ho. induction m as [|m IH]; intros n l s E Hf.
  - rewrite Nat.add_0_r in E. subst n. exists l, s. repeat split; auto.
  - destruct (stage_text n a l s ltac:(lia) Ha Ho Hf) as (l1 & s1 & H1 & H2). pose proof (stepped_flow _ _ _ _ _ H1 Hf) as F1.
    destruct (IH (S n) l1 s1 ltac:(lia) F1) as (l' & s' & H3 & H4 & H5). exists l', s'. split; [|split; [exact H4|]].
    + intros P Q HP. apply H3; [exact Q|]. eapply Q; eauto.
    + cbn [seq map foldM]. unfold bind. rewrite H2. exact H5.
Qed.
Lemma fold_patterns f text rs s : foldM (fun t r => replace_allM (rx_re r) f t) text rs s = foldM (fun t r => replace_allM r f t) text (map rx_re rs) s.
Proof. revert text s. induction rs as [|r rs IH]; intros text s; [reflexivity|]. cbn [foldM map]. unfold bind. destruct (replace_allM _ _ _ s); auto. Qed.

End Stage.

(** ** What the state remembers *)
Definition found (s : pstate) (k : nat) (i : N) : Prop :=
  assocN i (ps_ref_cache s) = Some (open_tag k) /\ assocN (i + 1) (ps_ref_cache s) = Some (close_tag k) /\ i + 1 <= ps_ref_index s.
Definition tracks (s : pstate) (o : nat * str * str) (p : item * str) : Prop :=
  match p with (Src k w, t) => o = (k, w, t) | (Tok i w, t) => exists k, o = (k, w, t) /\ found s k i end.
Definition grows (s s' : pstate) : Prop :=
  s' = set_ref_cache (ps_ref_cache s') (set_ref_index (ps_ref_index s') s) /\ ps_ref_index s <= ps_ref_index s' /\
  forall i, i <= ps_ref_index s -> assocN i (ps_ref_cache s') = assocN i (ps_ref_cache s).
Lemma assocN_insert {A} k (v : A) i l : assocN i (nm_insert k v l) = if k =? i then Some v else assocN i l.
Proof.
  induction l as [|[k' v'] l IH]; cbn [nm_insert assocN]; [reflexivity|]. destruct (N.eqb_spec k' k) as [->|Hn]; cbn [assocN]; [destruct (k =? i); reflexivity|].
  rewrite IH. destruct (N.eqb_spec k' i) as [->|]; [|reflexivity]. destruct (N.eqb_spec k i); [congruence|reflexivity].
Qed.
Lemma grows_refl s : grows s s.
Proof. split; [destruct s; reflexivity|]. split; [lia|auto]. Qed.
Lemma grows_trans a b c : grows a b -> grows b c -> grows a c.
Proof.
  intros (A1 & A2 & A3) (B1 & B2 & B3). split; [rewrite B1, A1 at 1; destruct a; reflexivity|]. split; [lia|]. intros i Hi. rewrite B3 by lia. auto.
Qed.
Lemma tagged_index n s : ps_ref_index (tagged n s) = ps_ref_index s + 2.
Proof. unfold tagged, after_ref. cbn. lia. Qed.
Lemma tagged_grows n s : grows s (tagged n s).
Proof.
  split; [destruct s; reflexivity|]. split; [rewrite tagged_index; lia|]. intros i Hi. unfold tagged, after_ref. cbn [ps_ref_cache set_ref_cache set_ref_index ps_ref_index]. rewrite !assocN_insert.
  destruct (N.eqb_spec (ps_ref_index s + 1 + 1) i); [lia|]. destruct (N.eqb_spec (ps_ref_index s + 1) i); [lia|reflexivity].
Qed.
Lemma tagged_found n s : found (tagged n s) n (ps_ref_index s + 1).
Proof.
  unfold found. rewrite tagged_index. unfold tagged, after_ref. cbn [ps_ref_cache set_ref_cache set_ref_index ps_ref_index]. rewrite !assocN_insert, !N.eqb_refl.
  destruct (N.eqb_spec (ps_ref_index s + 1 + 1) (ps_ref_index s + 1)); [lia|]. repeat split. lia.
Qed.
Lemma grows_found s s' k i : grows s s' -> found s k i -> found s' k i.
Proof. intros (_ & G1 & G2) (F1 & F2 & F3). repeat split; [rewrite G2 by lia; exact F1|rewrite G2 by lia; exact F2|lia]. Qed.
Lemma grows_tracks s s' o p : grows s s' -> tracks s o p -> tracks s' o p.
Proof. intros G. destruct p as [[k w|i w] t]; cbn [tracks]; auto. intros (k & E & F). exists k. split; [exact E|]. eapply grows_found; eauto. Qed.
Lemma stepped_grows n l s l' s' : stepped n l s l' s' -> grows s s'.
Proof. induction 1 as [s|it t l s l' s' Hi H IH|w t l s l' s' H IH]; [apply grows_refl|exact IH|]. eapply grows_trans; [apply tagged_grows|exact IH]. Qed.
Lemma stepped_tracks n l s l' s' : stepped n l s l' s' -> forall os, Forall2 (tracks s) os l -> Forall2 (tracks s') os l'.
Proof.
  induction 1 as [s|it t l s l' s' Hi H IH|w t l s l' s' H IH]; intros os F; [exact F| |]; inversion F as [|o p os' ps Ho Hos]; subst; constructor.
  - eapply grows_tracks; [eapply stepped_grows; exact H|exact Ho].
  - apply IH. exact Hos.
  - cbn [tracks] in *. exists n. split; [exact Ho|]. eapply grows_found; [eapply stepped_grows; exact H|]. apply tagged_found.
  - apply IH. clear - Hos. induction Hos; constructor; auto. eapply grows_tracks; [apply tagged_grows|assumption].
Qed.
Definition waiting (l : list (item * str)) : N := N.of_nat (List.length (filter (fun p => match fst p with Src _ _ => true | _ => false end) l)).
Lemma stepped_waiting n l s l' s' : stepped n l s l' s' -> ps_ref_index s' + 2 * waiting l' = ps_ref_index s + 2 * waiting l.
Proof.
  induction 1 as [s|it t l s l' s' Hi H IH|w t l s l' s' H IH]; [reflexivity| |]; unfold waiting in *; cbn [filter fst].
  - destruct it; cbn [List.length]; lia.
  - rewrite tagged_index in IH. cbn [List.length]. lia.
Qed.

(** ** The spans of a text *)
Lemma word_quiet n w : (n < 10)%nat -> word_text w -> no_match (mark_re n) w.
Proof.
  intros Hn Hw a b E. pose proof (marks_good n Hn) as Hg. destruct b as [|c b]; [apply mark_nil; apply Hg|]. apply miss_free; auto. pose proof (word_free w Hw) as F. rewrite E, forallb_app in F. apply andb_prop in F as [_ F]. cbn [forallb] in F.
  apply andb_prop in F as [F _]. exact F.
Qed.
Lemma span_words T n w s : word_text w -> span_n T (S n) w s = Ret w s.
Proof.
  intros Hw. rewrite span_n_eq.
  assert (forall f s, multi_replace_with_one w TAG_PATTERNS f s = Ret w s) as P.
  { intros f s0. unfold multi_replace_with_one. rewrite fold_patterns, patterns_marks. revert s0.
    assert (forall ks, (forall k, In k ks -> (k < 10)%nat) -> forall s0, foldM (fun t r => replace_allM r f t) w (map mark_re ks) s0 = Ret w s0) as Q.
    { induction ks as [|k ks IH]; intros Hk s0; [reflexivity|]. cbn [map foldM]. unfold bind. rewrite no_match_replaceM by (apply word_quiet; auto; apply Hk; left; reflexivity). apply IH. intros k' H. apply Hk. right. exact H. }
    intros s0. apply Q. intros k Hk. apply in_seq in Hk. lia. }
  unfold bind, modify, ret. destruct (_ <=? _); [rewrite P|]; f_equal; destruct s; unfold set_span_depth; cbn; f_equal; lia.
Qed.
Definition marked_text (os : list (nat * str * str)) : list (item * str) := map (fun o => (Src (fst (fst o)) (snd (fst o)), snd o)) os.
Lemma span_text T a os s : forallb free (t_uid T) = true -> 1 <= t_max_span_depth T -> ps_span_depth s = 0 -> ps_ref_index s = 0 -> calm a -> (a = [] \/ closes a) -> flow 0 (marked_text os) ->
  exists l s', span T (a ++ render T (marked_text os)) s = Ret (a ++ render T l) s' /\ grows s s' /\ Forall2 (tracks s') os l /\ flow 10 l /\ ps_ref_index s' = 2 * N.of_nat (List.length os).
Proof.
  intros Hu Hd Hz Hi Ha Ho Hf. unfold span. rewrite span_n_eq, Hz. replace (0 + 1 <=? t_max_span_depth T) with true by (symmetry; apply N.leb_le; lia).
  unfold multi_replace_with_one. set (s1 := set_span_depth (0 + 1) s).
  destruct (stages_text T Hu (span_n T (S (N.to_nat (t_max_span_depth T)))) (fun w s Hw => span_words T _ w s Hw) a Ha Ho 10 0 (marked_text os) s1 eq_refl Hf) as (l & s2 & HP & Hl & E).
  rewrite <- patterns_marks in E. rewrite <- fold_patterns in E.
  assert (grows s1 s2) as G by (apply (HP (fun _ x => grows s1 x)); [intros; eapply grows_trans; [eassumption|]; eapply stepped_grows; eassumption|apply grows_refl]).
  assert (Forall2 (tracks s2) os l) as TR.
  { apply (HP (fun l x => Forall2 (tracks x) os l)); [intros; eapply stepped_tracks; eassumption|]. clear. induction os as [|[[k w] t] os IH]; cbn [marked_text map]; constructor; [reflexivity|exact IH]. }
  assert (ps_ref_index s2 + 2 * waiting l = 2 * N.of_nat (List.length os)) as W.
  { apply (HP (fun l x => ps_ref_index x + 2 * waiting l = 2 * N.of_nat (List.length os))); [intros n0 l0 a0 l1 a1 Hs <-; eapply stepped_waiting; eassumption|]. change (ps_ref_index s1) with (ps_ref_index s). rewrite Hi.
    unfold waiting. clear. induction os as [|o os IH]; cbn [marked_text map filter fst List.length] in *; [reflexivity|]. unfold marked_text in IH. lia. }
  assert (waiting l = 0) as W0.
  { clear - Hl. unfold waiting. induction l as [|[[k w|i w] t] l IH]; [reflexivity| |]; cbn [flow] in Hl; destruct Hl as (H1 & _ & _ & _ & H2); [destruct H1; lia|]. cbn [filter fst]. apply IH. exact H2. }
  exists l, (set_span_depth 0 s2). destruct G as (G1 & G2 & G3). split; [|split; [|split; [|split; [exact Hl|]]]].
  - unfold bind at 1. rewrite E. unfold bind, modify, ret. f_equal. assert (ps_span_depth s2 = 0 + 1) as -> by (rewrite G1; reflexivity). reflexivity.
  - split; [|split; [exact G2|exact G3]]. rewrite G1. unfold s1. destruct s; cbn in *; subst; reflexivity.
  - clear - TR. induction TR as [|o p os l H TR IH]; constructor; auto.
  - change (ps_ref_index (set_span_depth 0 s2)) with (ps_ref_index s2). lia.
Qed.

(** ** The tokens *)
Definition num_cls : cls := mk_cls false [CRange 48 57].
Definition rest_re (w : str) : re := RSeq (RGroup 1 (RSeq (RCls num_cls) (RStar true (RCls num_cls))))
  (match w with [] => REps | c :: w => fold_right (fun d r c => RSeq (RCls (ProofParse.one c)) (r d)) (fun c => RCls (ProofParse.one c)) w c end).
Lemma ospan_shape : rx_re OSPAN_TOKEN_REST = rest_re (u ":ospan ").
Proof. reflexivity. Qed.
Lemma cspan_shape : rx_re CSPAN_TOKEN_REST = rest_re (u ":cspan").
Proof. reflexivity. Qed.
Lemma m_lit w r before rest cs k : m (lit_then w r) (mk_mst before (w ++ rest) cs) k = m r (mk_mst (rev w ++ before) rest cs) k.
Proof.
  revert before. induction w as [|c w IH]; intros before; [reflexivity|]. cbn [lit_then app rev]. rewrite m_seq, m_cls. change (cls_of [RegexParse.one c]) with (ProofParse.one c). rewrite in_one, N.eqb_refl, IH, <- app_assoc. reflexivity.
Qed.
Lemma m_chain c w before rest cs k : m (fold_right (fun d r c => RSeq (RCls (ProofParse.one c)) (r d)) (fun c => RCls (ProofParse.one c)) w c) (mk_mst before (c :: w ++ rest) cs) k = k (mk_mst (rev w ++ c :: before) rest cs).
Proof.
  revert c before. induction w as [|d w IH]; intros c before; cbn [fold_right app rev].
  - rewrite m_cls, in_one, N.eqb_refl. reflexivity.
  - rewrite m_seq, m_cls, in_one, N.eqb_refl, IH, <- app_assoc. reflexivity.
Qed.
Lemma dec_num i : exists c d, dec i = c :: d /\ in_cls num_cls c = true /\ forallb (in_cls num_cls) d = true.
Proof.
  destruct (dec_spec i) as (H1 & H2 & _). destruct (dec i) as [|c d]; [congruence|]. exists c, d. cbn [forallb] in H2. apply andb_prop in H2 as [Hc Hd].
  assert (forall x, is_digit_ascii x = true -> in_cls num_cls x = true) as Q by (intros x Hx; unfold in_cls, num_cls; cbn [c_neg c_items existsb in_item]; unfold is_digit_ascii in Hx; rewrite Hx; reflexivity).
  repeat split; auto. rewrite forallb_forall in *. auto.
Qed.
Lemma token_hit lit w i before rest : w <> [] -> stops num_cls (w ++ rest) ->
  match_at (lit_then lit (rest_re w)) before (lit ++ dec i ++ w ++ rest) =
  Some (mk_mst (rev (lit ++ dec i ++ w) ++ before) rest [(1%nat, (dec i ++ w ++ rest, w ++ rest))]).
Proof.
  intros Hw Hs. unfold match_at. rewrite m_lit. unfold rest_re. rewrite m_seq, m_group, m_seq. destruct (dec_num i) as (c & d & -> & Hc & Hd). cbn [app]. rewrite m_cls, Hc.
  erewrite m_star_greedy; [reflexivity|exact Hd|exact Hs|]. cbn [m_before m_after m_caps]. destruct w as [|x w]; [congruence|]. cbn [app]. rewrite m_chain. f_equal. f_equal.
  repeat (progress (rewrite ?rev_app_distr, <- ?app_assoc; cbn [rev app])). reflexivity.
Qed.
Lemma lit_miss lit r before text : starts_with lit text = false -> match_at (lit_then lit r) before text = None.
Proof.
  intros H. destruct (match_at (lit_then lit r) before text) as [st|] eqn:M; [|reflexivity]. apply match_at_sound in M. apply mat_lit in M. destruct M as (s1 & [M _] & _). cbn [m_after] in M.
  rewrite M, starts_with_app in H. discriminate.
Qed.
(** Text that neither contains the literal nor ends with a part of it that goes on. *)
Definition apart (lit p rest : str) : Prop :=
  contains lit p = false /\ (rest = [] \/ (exists d r, rest = d :: r /\ ~ In d (tl lit)) \/ (exists p' d, p = p' ++ [d] /\ ~ In d lit)).
Lemma apart_pass lit r p before rest : apart lit p rest -> forall a c b, p = a ++ c :: b -> match_at (lit_then lit r) (rev a ++ before) (c :: b ++ rest) = None.
Proof.
  intros [Hc H] a c b E. apply lit_miss. destruct (starts_with lit (c :: b ++ rest)) eqn:S1; [|reflexivity]. exfalso. apply starts_with_iff in S1 as (z & S1).
  change (c :: b ++ rest) with ((c :: b) ++ rest) in S1. symmetry in S1. apply app_eq_app in S1 as (y & [[S1 S2]|[S1 S2]]).
  - (* the literal goes on *)
    destruct y as [|e y]; [rewrite app_nil_r in S1; rewrite E, <- S1 in Hc; pose proof (contains_mid lit a []) as Hm; rewrite app_nil_r in Hm; congruence|]. destruct H as [->|[(d & r' & -> & Hd)|(p' & d & Ep & Hd)]].
    + discriminate.
    + cbn [app] in S2. injection S2 as -> _. apply Hd. rewrite S1. cbn [tl app]. apply in_or_app. right. left. reflexivity.
    + apply Hd. rewrite S1. apply in_or_app. left. rewrite Ep in E. destruct (exists_last (l := c :: b) ltac:(discriminate)) as (b' & d' & Eb). rewrite Eb in E |- *. rewrite app_assoc in E.
      apply app_inj_tail in E as [_ ->]. apply in_or_app. right. left. reflexivity.
  - rewrite E, S1, contains_mid in Hc. discriminate.
Qed.
Lemma open_not_close uid i before rest : match_at (lit_then uid (rest_re (u ":ospan "))) before (uid ++ dec i ++ u ":cspan" ++ rest) = None.
Proof.
  unfold match_at. rewrite m_lit. unfold rest_re. rewrite m_seq, m_group, m_seq. destruct (dec_num i) as (c & d & -> & Hc & Hd). cbn [app]. rewrite m_cls, Hc.
  apply m_star_none; [reflexivity|]. intros w1 w2 ->. cbn [m_before m_after m_caps]. change (u ":ospan ") with [58; 111; 115; 112; 97; 110; 32]. change (u ":cspan") with [58; 99; 115; 112; 97; 110]. cbn [fold_right].
  rewrite forallb_app in Hd. apply andb_prop in Hd as [_ Hd]. rewrite m_seq. destruct w2 as [|x w2]; cbn [app].
  - rewrite m_cls, in_one. cbn [N.eqb Pos.eqb]. rewrite m_seq, m_cls, in_one. reflexivity.
  - cbn [forallb] in Hd. apply andb_prop in Hd as [Hx _]. rewrite m_cls, in_one. destruct (N.eqb_spec x 58) as [->|]; [vm_compute in Hx; discriminate|reflexivity].
Qed.

Section Tokens.
Variable T : textile.
Hypothesis uid_simple : simple_uid (t_uid T).
Notation uid := (t_uid T).
Lemma uid_shape : exists id, uid = [116; 101; 120; 116; 105; 108; 101; 82; 101; 102; 58] ++ id ++ [58] /\ ~ In 120 id /\ forallb (fun c => negb (existsb (N.eqb c) [32; 60; 62; 10; 91; 123] || existsb (N.eqb c) mark_chars)) id = true.
Proof.
  destruct uid_simple as (id & -> & H). exists id. split; [reflexivity|]. split.
  - intros F. apply H in F. apply (in_map (fun c => c =? 120)) in F. vm_compute in F. intuition discriminate.
  - apply forallb_forall. intros c Hc. apply H in Hc. revert c Hc. apply forallb_forall. vm_compute. reflexivity.
Qed.
Lemma uid_not d : In d [32; 60; 62; 10; 91; 123] \/ In d mark_chars -> ~ In d uid.
Proof.
  intros Hd. destruct uid_shape as (id & -> & _ & H). intros F. rewrite !in_app_iff in F. rewrite forallb_forall in H. destruct F as [F|[F|F]].
  - clear - Hd F. cbn [In mark_chars] in *. intuition (subst; discriminate).
  - specialize (H d F). apply negb_true_iff, orb_false_iff in H as [H1 H2]. destruct Hd as [Hd|Hd]; apply among_in in Hd; congruence.
  - clear - Hd F. cbn [In mark_chars] in *. intuition (subst; discriminate).
Qed.
Lemma uid_free : forallb free uid = true.
Proof.
  apply forallb_forall. intros c Hc. unfold free. destruct (existsb (N.eqb c) _) eqn:E; [|reflexivity]. exfalso. apply among_in in E. revert Hc. apply uid_not. cbn [In] in *. tauto.
Qed.
Lemma word_no_uid x w : ~ In 58 x -> word_text w -> contains uid (x ++ w) = false.
Proof.
  intros Hx Hw. destruct (contains uid (x ++ w)) eqn:E; [|reflexivity]. exfalso. apply contains_split in E. destruct E as (a & b & E). destruct uid_shape as (id & Eu & _). assert (In 58 (x ++ w)) as F.
  { rewrite E, Eu. rewrite !in_app_iff. right. left. left. cbn [In]. tauto. }
  apply in_app_or in F as [F|F]; [auto|]. assert (wchar 58 || (58 =? 32) = false) as Q by (vm_compute; reflexivity).
  destruct Hw as [[_ H]|(y & v & z & -> & Hy & Hz & Hv & _)].
  - rewrite forallb_forall in H. specialize (H 58 F). rewrite H in Q. discriminate.
  - destruct F as [F|F]; [subst; rewrite Hy in Q; discriminate|]. apply in_app_or in F as [F|[F|[]]]; [|subst; rewrite Hz in Q; discriminate]. rewrite forallb_forall in Hv. specialize (Hv 58 F). congruence.
Qed.
(** Inside a token no other starts. *)
Lemma token_inside i r before rest : forall a c b, tl uid ++ dec i ++ u ":cspan" = a ++ c :: b -> match_at (lit_then uid r) (rev a ++ before) (c :: b ++ rest) = None.
Proof.
  intros a c b E. apply lit_miss. destruct uid_shape as (id & Eu & Hid & _). rewrite Eu in *. clear Eu. cbn [tl app] in E. set (V := id ++ [58]) in *.
  assert (HV : exists V', V ++ dec i ++ u ":cspan" = V' ++ [97; 110] /\ ~ In 120 (V ++ dec i ++ u ":cspan")).
  { exists (V ++ dec i ++ [58; 99; 115; 112]). split; [rewrite <- !app_assoc; reflexivity|]. unfold V. rewrite !in_app_iff. destruct (dec_spec i) as (_ & Hd & _). rewrite forallb_forall in Hd.
    intros [[F|F]|[F|F]]; [auto|cbn [In] in F; intuition discriminate|apply Hd in F; discriminate|vm_compute in F; intuition discriminate]. }
  destruct HV as (V' & EV & HV). fold V. cbn [app]. 
  assert (K : forall a c b, V ++ dec i ++ u ":cspan" = a ++ c :: b -> forall z, starts_with (116 :: 101 :: 120 :: z) (c :: b ++ rest) = false).
  { intros a0 c0 b0 E0 z. rewrite EV in E0. destruct b0 as [|y b0].
    - change (V' ++ [97; 110]) with (V' ++ [97] ++ [110]) in E0. rewrite app_assoc in E0. apply app_inj_tail in E0 as [_ <-]. reflexivity.
    - destruct b0 as [|y2 b0].
      + change (a0 ++ [c0; y]) with (a0 ++ [c0] ++ [y]) in E0. change (V' ++ [97; 110]) with (V' ++ [97] ++ [110]) in E0. rewrite !app_assoc in E0. apply app_inj_tail in E0 as [E0 _]. apply app_inj_tail in E0 as [_ <-]. reflexivity.
      + cbn [app starts_with]. destruct (N.eqb_spec 120 y2) as [<-|]; [|rewrite !andb_false_r; reflexivity]. exfalso. apply HV. rewrite EV, E0. rewrite in_app_iff. cbn [In]. tauto. }
  do 10 (destruct a as [|? a]; [injection E as <- <-; reflexivity|cbn [app] in E; injection E as <- E]). apply (K a c b E).
Qed.
Definition tok := (nat * N * str * str)%type.
Definition raw_tok (x : tok) : str := let '(k, i, w, t) := x in open_token T i ++ w ++ close_token T (i + 1) ++ t.
Definition half_tok (x : tok) : str := let '(k, i, w, t) := x in open_tag k ++ w ++ close_token T (i + 1) ++ t.
Definition done_tok (x : tok) : str := let '(k, i, w, t) := x in open_tag k ++ w ++ close_tag k ++ t.
Fixpoint tok_flow (s : pstate) (l : list tok) : Prop :=
  match l with
  | [] => True
  | (k, i, w, t) :: l' => found s k i /\ i + 1 <= u32_max /\ (k < 10)%nat /\ word_text w /\ contains uid t = false /\
      (l' <> [] -> exists a d, t = a ++ [d] /\ (d = 32 \/ d = 62)) /\ tok_flow s l'
  end.
Lemma tag_hit s lit w i tag before rest st text : parse_uint u32_max (dec i) = Some i -> assocN i (ps_ref_cache s) = Some tag ->
  match_at (lit_then lit (rest_re w)) before text = Some st -> m_caps st = [(1%nat, (dec i ++ w ++ rest, w ++ rest))] ->
  retrieve_tag_hit (mk_hit_of text st) s = Ret tag s.
Proof.
  intros Hp Hf _ Hc. unfold retrieve_tag_hit, capx, mk_hit_of. cbn [h_caps]. rewrite Hc. unfold cap_text. cbn [find_cap Nat.eqb option_map]. rewrite cap_str_app. cbn [of_opt]. rewrite bind_ret. rewrite Hp. cbn [of_opt]. rewrite bind_ret.
  unfold bind, get, ret. rewrite Hf. reflexivity.
Qed.
Lemma not_32 : ~ In 32 uid. Proof. apply uid_not. cbn; tauto. Qed.
Lemma not_60 : ~ In 60 uid. Proof. apply uid_not. cbn; tauto. Qed.
Lemma not_62 : ~ In 62 uid. Proof. apply uid_not. cbn; tauto. Qed.
Lemma opens_pass s l : tok_flow s l -> forall before, yields (lit_then uid (rest_re (u ":ospan "))) retrieve_tag_hit before (flat_map raw_tok l) s (flat_map half_tok l) s.
Proof.
  assert (En : forall before, match_at (lit_then uid (rest_re (u ":ospan "))) before [] = None) by (intros b; apply lit_miss; destruct uid_shape as (id & -> & _); reflexivity).
  induction l as [|[[[k i] w] t] l IH]; intros Hf before; [apply yields_nil; apply En|]. destruct Hf as ((F1 & F2 & F3) & Hi & Hk & Hw & Ht & Hl & Hf). cbn [flat_map raw_tok half_tok].
  unfold open_token, close_token. rewrite <- !app_assoc. set (R := flat_map raw_tok l) in *.
  assert (E1 : forall z, uid ++ dec i ++ u ":ospan " ++ z = (uid ++ dec i ++ u ":ospan ") ++ z) by (intros z; rewrite <- !app_assoc; reflexivity). rewrite E1.
  assert (Hs : forall z, stops num_cls (u ":ospan " ++ z)) by reflexivity.
  eapply yields_hit; [|rewrite <- E1; apply token_hit; [discriminate|apply Hs]|reflexivity|eapply (tag_hit s _ _ i); [apply parse_uint_dec; lia|exact F1|rewrite <- E1; apply token_hit; [discriminate|apply Hs]|reflexivity]|].
  { destruct uid_shape as (id & -> & _). discriminate. }
  change (u " ") with [32]. set (Z := uid ++ dec (i + 1) ++ u ":cspan" ++ t ++ R).
  assert (EZ : w ++ [32] ++ Z = (w ++ [32]) ++ Z) by (rewrite <- app_assoc; reflexivity). rewrite EZ.
  assert (EY : forall Y : str, w ++ [32] ++ Y = (w ++ [32]) ++ Y) by (intros; rewrite <- app_assoc; reflexivity). rewrite EY.
  apply yields_pass.
  { apply apart_pass. split; [|right; right; exists w, 32; split; [reflexivity|apply not_32]]. destruct (contains uid (w ++ [32])) eqn:E; [|reflexivity]. exfalso. pose proof (word_no_uid [] w (fun F => F) Hw) as Q. cbn [app] in Q.
    apply contains_split in E as (a & b & E). destruct (exists_last (l := uid) ltac:(destruct uid_shape as (id & -> & _); discriminate)) as (u' & d & Eu). destruct b as [|? ?] using rev_ind.
    - rewrite app_nil_r, Eu, app_assoc in E. apply app_inj_tail in E as [_ <-]. apply not_32. rewrite Eu. apply in_or_app. right. left. reflexivity.
    - rewrite !app_assoc in E. apply app_inj_tail in E as [E _]. rewrite <- app_assoc in E. rewrite E, contains_mid in Q. discriminate. }
  unfold Z. destruct uid_shape as (id & Eu & _). assert (uid = 116 :: tl uid) as Eh by (rewrite Eu; reflexivity).
  assert (E3 : forall z : str, uid ++ z = [116] ++ tl uid ++ z) by (intros z; rewrite Eh at 1; reflexivity). rewrite !E3.
  apply yields_pass. { intros a c b E. destruct a as [|? [|]]; try discriminate. injection E as <- <-. cbn [rev app]. change (116 :: tl uid ++ ?z) with ((116 :: tl uid) ++ z). rewrite <- Eh. apply open_not_close. }
  assert (E4 : forall z : str, tl uid ++ dec (i + 1) ++ u ":cspan" ++ z = (tl uid ++ dec (i + 1) ++ u ":cspan") ++ z) by (intros; rewrite <- !app_assoc; reflexivity). rewrite !E4.
  apply yields_pass; [apply token_inside|]. apply yields_pass; [|apply IH; exact Hf]. apply apart_pass. split; [exact Ht|]. destruct l as [|x l]; [left; reflexivity|]. right. right. destruct (Hl ltac:(discriminate)) as (a & d & -> & Hd).
  exists a, d. split; [reflexivity|]. destruct Hd as [-> | ->]; [apply not_32|apply not_62].
Qed.
Lemma tag_no_colon k : (k < 10)%nat -> ~ In 58 (open_tag k).
Proof. intros Hk F. do 10 (destruct k as [|k]; [vm_compute in F; intuition discriminate|]). lia. Qed.
Lemma closes_pass s l : tok_flow s l -> forall before, yields (lit_then (32 :: uid) (rest_re (u ":cspan"))) retrieve_tag_hit before (flat_map half_tok l) s (flat_map done_tok l) s.
Proof.
  induction l as [|[[[k i] w] t] l IH]; intros Hf before; [apply yields_nil; apply lit_miss; reflexivity|]. destruct Hf as ((F1 & F2 & F3) & Hi & Hk & Hw & Ht & Hl & Hf). cbn [flat_map half_tok done_tok].
  unfold close_token. change (u " ") with [32]. set (R := flat_map half_tok l) in *. rewrite <- !app_assoc.
  assert (E0 : forall z, open_tag k ++ w ++ z = (open_tag k ++ w) ++ z) by (intros z; rewrite <- !app_assoc; reflexivity). rewrite !E0. cbn [app].
  apply yields_pass. { apply apart_pass. split; [apply (contains_suffix [32]); apply word_no_uid; [apply tag_no_colon; exact Hk|exact Hw]|]. right. left. do 2 eexists. split; [reflexivity|]. cbn [tl]. apply not_32. }
  assert (E1 : forall z, 32 :: uid ++ dec (i + 1) ++ u ":cspan" ++ z = ((32 :: uid) ++ dec (i + 1) ++ u ":cspan") ++ z) by (intros z; cbn [app]; rewrite <- !app_assoc; reflexivity). rewrite E1.
  assert (Hs : forall z, stops num_cls (u ":cspan" ++ z)) by reflexivity.
  assert (Hm : forall before z, match_at (lit_then (32 :: uid) (rest_re (u ":cspan"))) before (((32 :: uid) ++ dec (i + 1) ++ u ":cspan") ++ z) = Some (mk_mst (rev ((32 :: uid) ++ dec (i + 1) ++ u ":cspan") ++ before) z [(1%nat, (dec (i + 1) ++ u ":cspan" ++ z, u ":cspan" ++ z))])).
  { intros b z. rewrite <- (token_hit (32 :: uid) (u ":cspan") (i + 1) b z) by (discriminate || apply Hs). rewrite <- !app_assoc. reflexivity. }
  eapply yields_hit; [discriminate|apply Hm|reflexivity|eapply (tag_hit s _ _ (i + 1)); [apply parse_uint_dec; lia|exact F2|apply Hm|reflexivity]|].
  apply yields_pass; [|apply IH; exact Hf]. apply apart_pass. split; [apply (contains_suffix [32]); exact Ht|]. destruct l as [|[[[k' i'] w'] t'] l]; [left; reflexivity|]. right. left. exists 60, (tl (R)). split; [|cbn [tl]; apply not_60].
  unfold R. cbn [flat_map half_tok]. reflexivity.
Qed.
Lemma cached_at {A} line tag r (body : rx -> M A) x s (k : A -> M A) y : expected uid line tag = Some r -> @cache_ok (own T) (ps_cache s) -> ps_borrowed s = false ->
  (forall s', ps_ref_cache s' = ps_ref_cache s -> ps_ref_index s' = ps_ref_index s -> body r s' = Ret x s') ->
  (forall c, @cache_ok (own T) c -> exists c', @cache_ok (own T) c' /\ k x (set_cache c s) = Ret y (set_cache c' s)) ->
  exists c, @cache_ok (own T) c /\ bind acquire (fun _ => bind (cached line tag (Some r)) (fun p => bind (body p) (fun a => bind release (fun _ => k a)))) s = Ret y (set_cache c s).
Proof.
  intros He Hc Hn Hb Hk. unfold acquire. unfold bind at 1. unfold bind at 1. unfold get. rewrite Hn. unfold put.
  destruct (cached_hit T line tag r (set_borrowed true s) Hc He) as (c' & E & Hc'). unfold bind at 1. rewrite E. unfold bind at 1. rewrite Hb by reflexivity. unfold bind, release, modify.
  destruct (Hk c' Hc') as (c2 & Hc2 & E2). exists c2. split; [exact Hc2|]. rewrite <- E2. f_equal. destruct s; cbn in *. subst. reflexivity.
Qed.
Lemma retrieve_text s a l : @cache_ok (own T) (ps_cache s) -> ps_borrowed s = false -> contains uid a = false -> (exists a' d, a = a' ++ [d] /\ (d = 32 \/ d = 62)) -> tok_flow s l -> l <> [] ->
  exists c, @cache_ok (own T) c /\ retrieve_tags T (a ++ flat_map raw_tok l) s = Ret (a ++ flat_map done_tok l) (set_cache c s).
Proof.
  intros Hc Hn Ha Hd Hf Hl. unfold retrieve_tags.
  assert (uid_plain uid = true) as Hp by (apply uid_simple_plain; exact uid_simple).
  assert (exists r1, ospan_token_re uid = Some r1 /\ rx_re r1 = lit_then uid (rest_re (u ":ospan "))) as (r1 & E1 & R1).
  { unfold ospan_token_re. rewrite Hp. eexists. split; [reflexivity|]. cbn [rx_re]. rewrite ospan_shape. reflexivity. }
  assert (exists r2, cspan_token_re uid = Some r2 /\ rx_re r2 = lit_then (32 :: uid) (rest_re (u ":cspan"))) as (r2 & E2 & R2).
  { unfold cspan_token_re. rewrite Hp. eexists. split; [reflexivity|]. cbn [rx_re]. rewrite cspan_shape. reflexivity. }
  assert (HF : forall s', ps_ref_cache s' = ps_ref_cache s -> ps_ref_index s' = ps_ref_index s -> tok_flow s' l).
  { intros s' Hs Hi. clear - Hf Hs Hi. induction l as [|[[[k i] w] t] l IH]; [exact I|]. cbn [tok_flow] in *. unfold found in *. rewrite Hs, Hi. destruct Hf as (F1 & F2 & F3 & F4 & F5 & F6 & F7). repeat split; try apply F1; auto; try apply F3. }
  rewrite E1, E2. apply (cached_at 1608 [] r1 (fun p => replace_allM (rx_re p) retrieve_tag_hit (a ++ flat_map raw_tok l)) (a ++ flat_map half_tok l)); auto.
  - intros s' Hs Hi. rewrite R1. apply yields_all. apply yields_pass; [|apply opens_pass; auto]. apply apart_pass. split; [exact Ha|]. right. right. destruct Hd as (a' & d & -> & Hd). exists a', d. split; [reflexivity|]. destruct Hd as [-> | ->]; [apply not_32|apply not_62].
  - intros c0 Hc0. destruct (cached_at 1619 [] r2 (fun p => replace_allM (rx_re p) retrieve_tag_hit (a ++ flat_map half_tok l)) (a ++ flat_map done_tok l) (set_cache c0 s) (fun x => ret x) (a ++ flat_map done_tok l)) as (c2 & Hc2 & E); auto.
    + intros s' Hs Hi. rewrite R2. apply yields_all. apply yields_pass; [|apply closes_pass; auto]. apply apart_pass. split; [apply (contains_suffix [32]); exact Ha|]. right. left. destruct l as [|[[[k i] w] t] l]; [congruence|].
      exists 60, (tl (flat_map half_tok ((k, i, w, t) :: l))). split; [reflexivity|]. cbn [tl]. apply not_60.
    + intros c1 Hc1. exists c1. split; [exact Hc1|reflexivity].
    + exists c2. split; [exact Hc2|]. etransitivity; [exact E|]. destruct s; reflexivity.
Qed.
End Tokens.
