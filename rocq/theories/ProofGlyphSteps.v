(** The typographic replacements, as rules for any text: the times sign, years, and all together. *)
From Verif Require Import Str Unicode Regex RegexParse RegexSnips RegexTheory RegexAuto Lib ModelBase ModelHtml ModelInline ModelParser ProofParse ProofTags ProofDoc ProofWeave ProofFootHits ProofSymbolHits SpecGlyphRules ProofGlyphRules.
#[local] Arguments u : simpl never.

(** ** Optional characters *)
Definition starts_only (k : mst -> option mst) (p : N -> bool) : Prop := forall b t cs, match t with c :: _ => p c = false | [] => True end -> k (mk_mst b t cs) = None.
Lemma opt_step K p P k : one_of K p -> starts_only k P -> (forall c, p c = true -> P c = false) ->
  (forall b t cs, m (RAlt K REps) (mk_mst b t cs) k = k (mk_mst (rev (fst (opt_char p t)) ++ b) (snd (opt_char p t)) cs)) /\ starts_only (fun s => m (RAlt K REps) s k) (fun c => p c || P c).
Proof.
  intros HK Hk Hp.
  assert (G : forall b t cs, m (RAlt K REps) (mk_mst b t cs) k = k (mk_mst (rev (fst (opt_char p t)) ++ b) (snd (opt_char p t)) cs)).
  { intros b t cs. rewrite m_alt, m_eps. destruct (HK b cs k) as [N1 C1]. destruct t as [|c t]; [rewrite N1; reflexivity|]. rewrite C1. cbn [opt_char]. destruct (p c) eqn:E; [|reflexivity]. cbn [fst snd rev app].
    rewrite (Hk b (c :: t) cs) by (apply Hp; exact E). destruct (k (mk_mst (c :: b) t cs)); reflexivity. }
  split; [exact G|]. intros b t cs H. rewrite G. apply Hk. destruct t as [|c t]; [exact I|]. apply orb_false_elim in H as [H1 H2]. cbn [opt_char]. rewrite H1. exact H2.
Qed.
Lemma opt_is p t : t = fst (opt_char p t) ++ snd (opt_char p t).
Proof. destruct t as [|c t]; [reflexivity|]. cbn [opt_char]. destruct (p c); reflexivity. Qed.

(** ** A number ahead *)
Definition digit_c : cls := mk_cls false [CRange 48 57].
Lemma in_digit d : in_cls digit_c d = ascii_digit d.
Proof. unfold in_cls, digit_c, ascii_digit. cbn [c_neg c_items existsb in_item]. rewrite orb_false_r, xorb_false_l. reflexivity. Qed.
Lemma one_digit : one_of (RCls digit_c) ascii_digit. Proof. apply one_cls. intros d. apply in_digit. Qed.
Definition some (o : option mst) : bool := match o with Some _ => true | None => false end.
Lemma star_some c b t cs : some (m (RStar true (RCls c)) (mk_mst b t cs) Some) = true.
Proof. destruct (run (in_cls c) t) as [w r] eqn:E. destruct (run_split _ _ _ _ E) as (-> & Hw & Hr). erewrite m_star_greedy; [reflexivity|exact Hw| |reflexivity]. destruct r; [exact I|exact Hr]. Qed.
Definition plus_re : re := RSeq (RCls digit_c) (RStar true (RCls digit_c)).
Lemma plus_some b t cs : some (m plus_re (mk_mst b t cs) Some) = match t with d :: _ => ascii_digit d | [] => false end.
Proof. unfold plus_re. rewrite m_seq. destruct t as [|d t]; [rewrite m_cls_nil; reflexivity|]. rewrite m_cls, in_digit. destruct (ascii_digit d); [apply star_some|reflexivity]. Qed.
Definition point_re : re := RSeq (RAlt (RCls (one 46)) REps) plus_re.
Lemma point_some b t cs : some (m point_re (mk_mst b t cs) Some) = digits_ahead t.
Proof.
  unfold point_re. rewrite m_seq, m_alt, m_eps. destruct t as [|c t]; [rewrite m_cls_nil; apply (plus_some b [] cs)|]. rewrite m_cls, in_one. cbn [digits_ahead]. pose proof (plus_some (c :: b) t cs) as P1. pose proof (plus_some b (c :: t) cs) as P2.
  destruct (c =? 46); cbn [andb]; [|rewrite orb_false_r; exact P2]. destruct (m plus_re (mk_mst (c :: b) t cs) Some); [cbn [some] in P1; rewrite <- P1, orb_true_r; reflexivity|]. cbn [some] in P1. rewrite <- P1, orb_false_r. exact P2.
Qed.
Definition digits_re : re := RSeq (RStar true (RCls digit_c)) point_re.
Lemma digits_some b t cs : some (m digits_re (mk_mst b t cs) Some) = digits_ahead t.
Proof.
  unfold digits_re. rewrite m_seq. destruct (run ascii_digit t) as [w r] eqn:E. destruct (run_split _ _ _ _ E) as (-> & Hw & Hr).
  assert (Hw' : forallb (in_cls digit_c) w = true) by (rewrite forallb_forall in Hw |- *; intros d Hd; rewrite in_digit; apply Hw; exact Hd).
  assert (Hr' : stops digit_c r) by (destruct r; [exact I|cbn [stops]; rewrite in_digit; exact Hr]).
  destruct (m point_re (mk_mst (rev w ++ b) r cs) Some) as [y|] eqn:F.
  - erewrite m_star_greedy; [|exact Hw'|exact Hr'|exact F]. cbn [some]. pose proof (point_some (rev w ++ b) r cs) as P. rewrite F in P. cbn [some] in P. destruct w as [|d w]; [exact P|]. cbn [forallb] in Hw. apply andb_prop in Hw as [Hd _]. cbn [app digits_ahead]. rewrite Hd. reflexivity.
  - destruct w as [|d w] using rev_ind.
    + cbn [app]. pose proof (point_some b r cs) as P. cbn [rev app] in F. rewrite F in P. cbn [some] in P. rewrite <- P. rewrite (m_star_none digit_c true _ [] b r cs); [reflexivity|exact Hr'|]. intros w1 w2 Ew. symmetry in Ew. apply app_eq_nil in Ew as [-> ->]. exact F.
    + clear IHw. assert (Hd : ascii_digit d = true) by (rewrite forallb_app in Hw; apply andb_prop in Hw as [_ Hw]; cbn [forallb] in Hw; rewrite andb_true_r in Hw; exact Hw).
      assert (digits_ahead ((w ++ [d]) ++ r) = true) as ->. { destruct w as [|d' w]; cbn [app digits_ahead]; [rewrite Hd; reflexivity|]. cbn [app forallb] in Hw. apply andb_prop in Hw as [Hd' _]. rewrite Hd'. reflexivity. }
      pose proof (point_some (rev w ++ b) (d :: r) cs) as P. cbn [digits_ahead] in P. rewrite Hd in P. cbn [orb] in P. destruct (m point_re (mk_mst (rev w ++ b) (d :: r) cs) Some) as [y|] eqn:G; [|discriminate].
      rewrite <- app_assoc. erewrite (m_star_back digit_c _ _ [d] w b r cs); [reflexivity|exact Hw'|exact Hr'|exact G|]. intros v1 v2 x Ev. destruct v1 as [|v v1]; [|destruct v1; discriminate]. injection Ev as <- <-. cbn [rev app] in F |- *. rewrite rev_app_distr in F. exact F.
Qed.
Definition sc_c : cls := mk_cls false [CProp false PSc].
Lemma in_sc d : in_cls sc_c d = rmem tab_Sc d. Proof. apply (in_prop PSc). Qed.
Lemma digit_cases d : ascii_digit d = true -> d = 48 \/ d = 49 \/ d = 50 \/ d = 51 \/ d = 52 \/ d = 53 \/ d = 54 \/ d = 55 \/ d = 56 \/ d = 57.
Proof. unfold ascii_digit. intros H. apply andb_prop in H as [H1 H2]. apply N.leb_le in H1, H2. lia. Qed.
Ltac by_digits H := apply digit_cases in H; repeat (destruct H as [->|H]; [vm_compute; reflexivity|]); subst; vm_compute; reflexivity.
Definition currency_re : re := RSeq (RAlt (RSeq (RCls sc_c) (RStar true (RCls space_c))) REps) digits_re.
Lemma digits_none b t cs : digits_ahead t = false -> m digits_re (mk_mst b t cs) Some = None.
Proof. intros H. pose proof (digits_some b t cs) as P. rewrite H in P. destruct (m digits_re (mk_mst b t cs) Some); [discriminate|reflexivity]. Qed.
Lemma ahead_of c t : digits_ahead (c :: t) = true -> ascii_digit c = true \/ c = 46.
Proof. cbn [digits_ahead]. intros H. apply orb_prop in H as [H|H]; [auto|]. apply andb_prop in H as [H _]. apply N.eqb_eq in H. auto. Qed.
Lemma sc_not c t : rmem tab_Sc c = true -> digits_ahead (c :: t) = false.
Proof. intros H. destruct (digits_ahead (c :: t)) eqn:E; [|reflexivity]. assert (rmem tab_Sc c = false) as F; [|congruence]. apply ahead_of in E as [E| ->]; [by_digits E|vm_compute; reflexivity]. Qed.
Lemma ws_not c t : is_ws c = true -> digits_ahead (c :: t) = false.
Proof. intros H. destruct (digits_ahead (c :: t)) eqn:E; [|reflexivity]. assert (is_ws c = false) as F; [|congruence]. apply ahead_of in E as [E| ->]; [by_digits E|vm_compute; reflexivity]. Qed.
Lemma currency_some b t cs : some (m currency_re (mk_mst b t cs) Some) = digits_ahead (currency_off t).
Proof.
  unfold currency_re. rewrite m_seq, m_alt, m_eps, m_seq. destruct t as [|c t]; [rewrite m_cls_nil; apply (digits_some b [] cs)|]. rewrite m_cls, in_sc. cbn [currency_off]. destruct (rmem tab_Sc c) eqn:E; [|apply digits_some].
  rewrite (digits_none b (c :: t)) by (apply sc_not; exact E). destruct (run is_ws t) as [w r] eqn:F. destruct (run_split _ _ _ _ F) as (-> & Hw & Hr). cbn [snd]. rewrite star_run.
  - rewrite <- (digits_some (rev w ++ c :: b) r cs). destruct (m digits_re (mk_mst (rev w ++ c :: b) r cs) Some); reflexivity.
  - rewrite forallb_forall in Hw |- *. intros d Hd. rewrite in_space_c. apply Hw. exact Hd.
  - destruct r; [exact I|]. cbn [stops]. rewrite in_space_c. exact Hr.
  - intros w1 x w2 Ew. apply digits_none, ws_not. rewrite Ew, forallb_app in Hw. apply andb_prop in Hw as [_ Hw]. cbn [forallb] in Hw. apply andb_prop in Hw as [Hx _]. exact Hx.
Qed.
Definition list_c (l : str) : cls := mk_cls false (map (fun c => CRange c c) l).
Definition number_re : re := RSeq (RAlt (RCls (list_c [43; 45])) REps) currency_re.
Lemma sign_not c t : among (u "+-") c = true -> digits_ahead (currency_off (c :: t)) = false.
Proof. unfold among. intros H. apply existsb_exists in H as (d & Hd & E). apply N.eqb_eq in E. subst d. change (u "+-") with [43; 45] in Hd. destruct Hd as [<-|[<-|[]]]; reflexivity. Qed.
Lemma number_some b t cs : some (m number_re (mk_mst b t cs) Some) = number_ahead t.
Proof.
  unfold number_re, number_ahead. change (list_c [43; 45]) with (list_c (u "+-")). rewrite m_seq, m_alt, m_eps. destruct t as [|c t]; [rewrite m_cls_nil; apply (currency_some b [] cs)|]. rewrite m_cls. unfold list_c. rewrite in_list. cbn [opt_char]. destruct (among (u "+-") c) eqn:E; [|apply currency_some]. cbn [snd].
  pose proof (currency_some (c :: b) t cs) as P1. pose proof (currency_some b (c :: t) cs) as P2. rewrite (sign_not c t E) in P2. destruct (m currency_re (mk_mst (c :: b) t cs) Some); [exact P1|]. destruct (m currency_re (mk_mst b (c :: t) cs) Some); [discriminate|exact P1].
Qed.
(** ** The times sign *)
Definition look_k (t0 : str) : mst -> option mst := fun s => m (RLook number_re) (mk_mst (m_before s) (m_after s) ((2%nat, (t0, m_after s)) :: m_caps s)) Some.
Lemma look_is t0 b t cs : look_k t0 (mk_mst b t cs) = if number_ahead t then Some (mk_mst b t ((2%nat, (t0, t)) :: cs)) else None.
Proof. unfold look_k. cbn [m_before m_after m_caps]. rewrite <- (number_some b t ((2%nat, (t0, t)) :: cs)). cbn [m]. fold (m number_re). destruct (m number_re (mk_mst b t ((2%nat, (t0, t)) :: cs)) Some); reflexivity. Qed.
Definition unstarted (c : N) : bool := negb ((c =? 32) || (c =? 91) || (c =? 40)).
Lemma number_starts c t : unstarted c = false -> number_ahead (c :: t) = false.
Proof. unfold unstarted. intros H. apply negb_false_iff in H. apply orb_prop in H as [H|H]; [apply orb_prop in H as [H|H]|]; apply N.eqb_eq in H; subst; vm_compute; reflexivity. Qed.
Lemma number_nil : number_ahead [] = false. Proof. reflexivity. Qed.
Lemma look_starts t0 : starts_only (look_k t0) unstarted.
Proof. intros b t cs H. rewrite look_is. destruct t as [|c t]; [reflexivity|]. rewrite number_starts by exact H. reflexivity. Qed.
Lemma among_in l c : among l c = true -> In c l.
Proof. unfold among. intros H. apply existsb_exists in H as (d & Hd & E). apply N.eqb_eq in E. subst d. exact Hd. Qed.
Definition second_re : re := RSeq (RGroup 2 (RSeq (RAlt (RCls (one 32)) REps) (RAlt (RCls (list_c [91; 40])) REps))) (RLook number_re).
Lemma second_at b t cs : m second_re (mk_mst b t cs) Some =
  let (s2, t6) := opt_char (is 32) t in let (b2, t7) := opt_char (among (u "[(")) t6 in
  if number_ahead t7 then Some (mk_mst (rev b2 ++ rev s2 ++ b) t7 ((2%nat, (t, t7)) :: cs)) else None.
Proof.
  unfold second_re. rewrite m_seq, m_group, m_seq. fold (look_k t).
  destruct (opt_step (RCls (list_c [91; 40])) (among (u "[(")) unstarted (look_k t)) as [G1 S1]; [apply (one_among (u "[("))|apply look_starts|intros c Hc; apply among_in in Hc; change (u "[(") with [91; 40] in Hc; destruct Hc as [<-|[<-|[]]]; reflexivity|].
  destruct (opt_step (RCls (one 32)) (is 32) (fun c => among (u "[(") c || unstarted c) (fun s => m (RAlt (RCls (list_c [91; 40])) REps) s (look_k t))) as [G2 _]; [apply one_is|exact S1|intros c Hc; apply N.eqb_eq in Hc; subst; reflexivity|].
  rewrite G2, G1, look_is. destruct (opt_char (is 32) t) as [s2 t6]. cbn [fst snd]. destruct (opt_char (among (u "[(")) t6) as [b2 t7]. cbn [fst snd]. reflexivity.
Qed.
Definition first_re : re := RSeq (RAlt (RCls (list_c [93; 41])) REps) (RSeq (RAlt (RCls (list_c [39; 34])) REps) (RAlt (RCls (one 32)) REps)).
Definition cross_k (t0 : str) : mst -> option mst := fun s => m (RSeq (RCls (list_c [120; 88])) second_re) (mk_mst (m_before s) (m_after s) ((1%nat, (t0, m_after s)) :: m_caps s)) Some.
Lemma cross_is t0 b t cs : cross_k t0 (mk_mst b t cs) = match t with x :: t5 => if cross x then m second_re (mk_mst (x :: b) t5 ((1%nat, (t0, t)) :: cs)) Some else None | [] => None end.
Proof. unfold cross_k. cbn [m_before m_after m_caps]. rewrite m_seq. destruct t as [|x t]; [apply m_cls_nil|]. rewrite m_cls. unfold list_c. rewrite in_list. reflexivity. Qed.
Lemma cross_starts t0 : starts_only (cross_k t0) cross.
Proof. intros b t cs H. rewrite cross_is. destruct t as [|c t]; [reflexivity|]. rewrite H. reflexivity. Qed.
Lemma first_at t0 : (forall b t cs, m first_re (mk_mst b t cs) (cross_k t0) =
  let (a, t2) := opt_char (among (u "])")) t in let (q, t3) := opt_char (among (u "'""")) t2 in let (s, t4) := opt_char (is 32) t3 in
  cross_k t0 (mk_mst (rev s ++ rev q ++ rev a ++ b) t4 cs)) /\
  starts_only (fun s => m first_re s (cross_k t0)) (fun c => among (u "])") c || (among (u "'""") c || (is 32 c || cross c))).
Proof.
  destruct (opt_step (RCls (one 32)) (is 32) cross (cross_k t0)) as [G1 S1]; [apply one_is|apply cross_starts|intros c Hc; apply N.eqb_eq in Hc; subst; reflexivity|].
  destruct (opt_step (RCls (list_c [39; 34])) (among (u "'""")) (fun c => is 32 c || cross c) (fun s => m (RAlt (RCls (one 32)) REps) s (cross_k t0))) as [G2 S2]; [apply (one_among (u "'"""))|exact S1|intros c Hc; apply among_in in Hc; change (u "'""") with [39; 34] in Hc; destruct Hc as [<-|[<-|[]]]; reflexivity|].
  destruct (opt_step (RCls (list_c [93; 41])) (among (u "])")) (fun c => among (u "'""") c || (is 32 c || cross c)) (fun s => m (RAlt (RCls (list_c [39; 34])) REps) s (fun s => m (RAlt (RCls (one 32)) REps) s (cross_k t0)))) as [G3 S3]; [apply (one_among (u "])"))|exact S2|intros c Hc; apply among_in in Hc; change (u "])") with [93; 41] in Hc; destruct Hc as [<-|[<-|[]]]; reflexivity|].
  split; [|intros b t cs H; unfold first_re; rewrite m_seq; exact (S3 b t cs H)].
  intros b t cs. unfold first_re. rewrite m_seq. change (fun s' => m (RSeq (RAlt (RCls (list_c [39; 34])) REps) (RAlt (RCls (one 32)) REps)) s' (cross_k t0)) with (fun s => m (RAlt (RCls (list_c [39; 34])) REps) s (fun s => m (RAlt (RCls (one 32)) REps) s (cross_k t0))).
  rewrite G3, G2, G1. destruct (opt_char (among (u "])")) t) as [a t2]. cbn [fst snd]. destruct (opt_char (among (u "'""")) t2) as [q t3]. cbn [fst snd]. destruct (opt_char (is 32) t3) as [s t4]. reflexivity.
Qed.
Lemma dim_shape : rx_re GL_DIM = RSeq (RAlt (RAssert WB) (RBack (list_c [120; 88]))) (RSeq (RGroup 1 (RSeq plus_re first_re)) (RSeq (RCls (list_c [120; 88])) second_re)).
Proof. reflexivity. Qed.
Lemma times_ok : at_ok (rx_re GL_DIM) (expand (u "$1&#215;$2")) times_at.
Proof.
  intros before t. unfold match_at. rewrite dim_shape, m_seq, m_alt, m_assert. cbn [assert_holds].
  set (K := fun s' => m (RSeq (RGroup 1 (RSeq plus_re first_re)) (RSeq (RCls (list_c [120; 88])) second_re)) s' Some).
  assert (EB : m (RBack (list_c [120; 88])) (mk_mst before t []) K = if match hd_error before with Some c => cross c | None => false end then K (mk_mst before t []) else None).
  { destruct before as [|c b]; [apply m_back_nil|]. rewrite m_back. unfold list_c. rewrite in_list. reflexivity. }
  rewrite EB. clear EB. change (m (RSeq (RGroup 1 (RSeq plus_re first_re)) (RSeq (RCls (list_c [120; 88])) second_re)) (mk_mst before t []) Some) with (K (mk_mst before t [])).
  assert (EK : forall d w r, t = (d :: w) ++ r -> ascii_digit d = true -> forallb ascii_digit w = true -> match r with c :: _ => ascii_digit c = false | [] => True end ->
    K (mk_mst before t []) = m first_re (mk_mst (rev w ++ d :: before) r []) (cross_k t)).
  { intros d w r Et Hd Hw Hr. unfold K. rewrite m_seq, m_group, m_seq. unfold plus_re. rewrite m_seq. rewrite Et at 1. cbn [app]. rewrite m_cls, in_digit, Hd. fold (cross_k t). destruct (first_at t) as [_ S]. apply star_run.
    - rewrite forallb_forall in Hw |- *. intros x Hx. rewrite in_digit. apply Hw. exact Hx.
    - destruct r; [exact I|]. cbn [stops]. rewrite in_digit. exact Hr.
    - intros w1 x w2 Ew. apply S. rewrite Ew, forallb_app in Hw. apply andb_prop in Hw as [_ Hw]. cbn [forallb] in Hw. apply andb_prop in Hw as [Hx _]. clear - Hx. by_digits Hx. }
  assert (E0 : match t with c :: _ => ascii_digit c = false | [] => True end -> K (mk_mst before t []) = None).
  { intros H. unfold K. rewrite m_seq, m_group, m_seq. unfold plus_re. rewrite m_seq. destruct t as [|c t]; [apply m_cls_nil|]. rewrite m_cls, in_digit, H. reflexivity. }
  clearbody K. unfold times_at. destruct (run ascii_digit t) as [n t1] eqn:E. destruct (run_split _ _ _ _ E) as (Et & Hn & Hr). destruct n as [|d w].
  { cbn [app] in Et. subst t1. rewrite E0 by exact Hr. cbn [is_empty negb andb]. destruct (opt_char (among (u "])")) t) as [a t2]. destruct (opt_char (among (u "'""")) t2) as [q t3]. destruct (opt_char (is 32) t3) as [s [|x t5]]; destruct (xorb _ _), (match hd_error before with Some c => cross c | None => false end); reflexivity. }
  cbn [forallb] in Hn. apply andb_prop in Hn as [Hd Hw]. rewrite (EK d w t1 Et Hd Hw Hr). destruct (first_at t) as [F _]. rewrite F. cbn [is_empty negb andb].
  assert (head_word t = true) as Hh by (rewrite Et; cbn [app head_word]; clear - Hd; by_digits Hd).
  assert (Eb : head_word before = word_here (hd_error before)) by (destruct before; reflexivity). rewrite Hh, Eb, xorb_true_r. clear EK E0 F.
  destruct (opt_char (among (u "])")) t1) as [a t2] eqn:Ea. destruct (opt_char (among (u "'""")) t2) as [q t3] eqn:Eq. destruct (opt_char (is 32) t3) as [s t4] eqn:Es.
  pose proof (opt_is (among (u "])")) t1) as I1. rewrite Ea in I1. pose proof (opt_is (among (u "'""")) t2) as I2. rewrite Eq in I2. pose proof (opt_is (is 32) t3) as I3. rewrite Es in I3. cbn [fst snd] in I1, I2, I3.
  rewrite cross_is. destruct t4 as [|x t5]; [destruct (negb _), (match hd_error before with Some c => cross c | None => false end); reflexivity|].
  set (L := negb (word_here (hd_error before))). set (X := match hd_error before with Some c => cross c | None => false end).
  assert (EO : forall o : option mst, match (if L then o else None) with Some y => Some y | None => if X then o else None end = if L || X then o else None) by (intros o; destruct L, X, o; reflexivity). rewrite EO. destruct (L || X); [|reflexivity]. cbn [andb].
  destruct (cross x); [|reflexivity]. rewrite second_at. destruct (opt_char (is 32) t5) as [s2 t6] eqn:Es2. destruct (opt_char (among (u "[(")) t6) as [b2 t7] eqn:Eb2.
  pose proof (opt_is (is 32) t5) as I4. rewrite Es2 in I4. pose proof (opt_is (among (u "[(")) t6) as I5. rewrite Eb2 in I5. cbn [fst snd] in I4, I5. destruct (number_ahead t7); [|reflexivity].
  exists ((d :: w) ++ a ++ q ++ s ++ x :: s2 ++ b2). eexists. split; [discriminate|]. split; [|split; [reflexivity|split; [reflexivity|]]].
  - rewrite Et, I1, I2, I3, I4, I5 at 1. rewrite <- !app_assoc. cbn [app]. rewrite <- !app_assoc. reflexivity.
  - unfold mk_hit_of. cbn [m_caps m_after]. match goal with |- expand _ ?h = _ => change (expand (u "$1&#215;$2") h) with (group_text (u "1") h ++ u "&#215;" ++ group_text (u "2") h ++ []) end.
    rewrite (group_1 _ _ ((d :: w) ++ a ++ q ++ s)), (group_2 _ _ (s2 ++ b2)), app_nil_r; [reflexivity| |].
    + apply (cap_is _ _ _ t7). cbn [find_cap Nat.eqb]. rewrite I4, I5 at 1. rewrite <- app_assoc. reflexivity.
    + apply (cap_is _ _ _ (x :: t5)). cbn [find_cap Nat.eqb]. rewrite Et, I1, I2, I3 at 1. rewrite <- !app_assoc. reflexivity.
Qed.
(** ** Years *)
Definition quoted_c : cls := mk_cls false [CRange 40 40; CRange 63 63; CRange 58 58; CProp false PL; CRange 124 124; CProp false PM; CRange 124 124; CProp false PN; CRange 124 124; CProp false PPc; CRange 41 41].
Definition quoted_char (c : N) : bool := letter c || among (u "(?:|)") c.
Lemma in_quoted c : in_cls quoted_c c = quoted_char c.
Proof. unfold in_cls, quoted_c, quoted_char, letter, among. change (u "(?:|)") with [40; 63; 58; 124; 41]. cbn [c_neg c_items existsb]. rewrite !in_range. cbn [in_item has_prop]. rewrite !xorb_false_l. destruct (c =? 40), (c =? 63), (c =? 58), (c =? 124), (c =? 41), (rmem tab_L c), (rmem tab_M c), (rmem tab_N c), (rmem tab_Pc c); reflexivity. Qed.
Definition upto_re : re := RSeq (RStar false (RCls quoted_c)) (RCls (one 39)).
Lemma upto_some b t cs : some (m upto_re (mk_mst b t cs) Some) = match snd (run quoted_char t) with c :: _ => c =? 39 | [] => false end.
Proof.
  unfold upto_re. rewrite m_seq. destruct (run quoted_char t) as [w r] eqn:E. destruct (run_split _ _ _ _ E) as (-> & Hw & Hr). cbn [snd].
  assert (Hw' : forallb (in_cls quoted_c) w = true) by (rewrite forallb_forall in Hw |- *; intros d Hd; rewrite in_quoted; apply Hw; exact Hd).
  assert (Hr' : stops quoted_c r) by (destruct r; [exact I|cbn [stops]; rewrite in_quoted; exact Hr]).
  assert (Hs : forall w1 x w2, w = w1 ++ x :: w2 -> forall b0, m (RCls (one 39)) (mk_mst b0 (x :: w2 ++ r) cs) Some = None).
  { intros w1 x w2 Ew b0. rewrite m_cls, in_one. destruct (N.eqb_spec x 39) as [->|]; [|reflexivity]. rewrite Ew, forallb_app in Hw. apply andb_prop in Hw as [_ Hw]. cbn [forallb] in Hw. apply andb_prop in Hw as [Hx _]. vm_compute in Hx. discriminate. }
  destruct (m (RCls (one 39)) (mk_mst (rev w ++ b) r cs) Some) as [y|] eqn:F.
  - assert (match r with c :: _ => c =? 39 | [] => false end = true) as ->. { destruct r as [|c r]; [rewrite m_cls_nil in F; discriminate|]. rewrite m_cls, in_one in F. destruct (c =? 39); [reflexivity|discriminate]. }
    erewrite m_star_lazy; [reflexivity|exact Hw'| |exact F]. intros w1 x w2 Ew. apply (Hs w1 x w2 Ew).
  - assert (match r with c :: _ => c =? 39 | [] => false end = false) as ->. { destruct r as [|c r]; [reflexivity|]. rewrite m_cls, in_one in F. destruct (c =? 39); [discriminate|reflexivity]. }
    rewrite m_star_none; [reflexivity|exact Hr'|]. intros w1 w2 Ew. destruct w2 as [|x w2]; [|apply (Hs w1 x w2 Ew)]. rewrite app_nil_r in Ew. subst w1. exact F.
Qed.
Definition quote_re : re := RSeq (RAlt (RCls (one 46)) REps) upto_re.
Lemma quote_some b t cs : some (m quote_re (mk_mst b t cs) Some) = quote_ahead t.
Proof.
  unfold quote_re, quote_ahead. fold quoted_char. rewrite m_seq. destruct (opt_step (RCls (one 46)) (is 46) (fun c => negb (c =? 46)) (fun s' => m upto_re s' Some)) as [G _]; [apply one_is| |intros c Hc; unfold is in Hc; rewrite Hc; reflexivity|].
  - intros b0 t0 cs0 H. pose proof (upto_some b0 t0 cs0) as P. destruct (m upto_re (mk_mst b0 t0 cs0) Some); [|reflexivity]. destruct t0 as [|c t0]; [discriminate|]. apply negb_false_iff, N.eqb_eq in H. subst c. vm_compute in P. discriminate.
  - rewrite G. apply upto_some.
Qed.
Definition end_k (t0 : str) : mst -> option mst := fun s => m (RSeq (RAssert WB) (RNLook quote_re)) (mk_mst (m_before s) (m_after s) ((2%nat, (t0, m_after s)) :: m_caps s)) Some.
Lemma end_is t0 b t cs : end_k t0 (mk_mst b t cs) = if ends_word (hd_error b) t then Some (mk_mst b t ((2%nat, (t0, t)) :: cs)) else None.
Proof.
  unfold end_k, ends_word. cbn [m_before m_after m_caps]. rewrite m_seq, m_assert. cbn [assert_holds]. rewrite m_nlook.
  assert (head_word b = word_here (hd_error b)) as -> by (destruct b; reflexivity). assert (head_word t = match t with c :: _ => word_char c | [] => false end) as -> by (destruct t; reflexivity).
  destruct (xorb _ _); [|reflexivity]. cbn [andb]. rewrite <- (quote_some b t ((2%nat, (t0, t)) :: cs)). destruct (m quote_re _ Some); reflexivity.
Qed.
Fixpoint covers (t : rtree) (lo hi : N) : bool :=
  match t with E => false | T l a b r => if hi <? a then covers l lo hi else if b <? lo then (a <=? lo) && covers r lo hi else (a <=? lo) && (hi <=? b) end.
Lemma covers_mem t lo hi c : covers t lo hi = true -> lo <= c -> c <= hi -> rmem t c = true.
Proof.
  induction t as [|l IHl a b r IHr]; cbn [covers rmem]; intros H H1 H2; [discriminate|]. destruct (N.ltb_spec hi a); [destruct (N.ltb_spec c a); [auto|lia]|]. destruct (N.ltb_spec b lo); [apply andb_prop in H as [Ha H]; apply N.leb_le in Ha; destruct (N.ltb_spec c a), (N.ltb_spec b c); auto; lia|].
  apply andb_prop in H as [Ha Hb]. apply N.leb_le in Ha, Hb. destruct (N.ltb_spec c a), (N.ltb_spec b c); auto; lia.
Qed.
Fixpoint within (t t' : rtree) : bool := match t with E => true | T l a b r => within l t' && covers t' a b && within r t' end.
Lemma within_mem t t' c : within t t' = true -> rmem t c = true -> rmem t' c = true.
Proof.
  induction t as [|l IHl a b r IHr]; cbn [within rmem]; intros H H1; [discriminate|]. apply andb_prop in H as [H Hr]. apply andb_prop in H as [Hl Hc]. destruct (N.ltb_spec c a); [auto|]. destruct (N.ltb_spec b c); [auto|]. eapply covers_mem; eauto.
Qed.
Lemma digit_word d : digit d = true -> word_char d = true.
Proof. apply within_mem. vm_compute. reflexivity. Qed.
Definition nd_c : cls := prop_c PNd.
Lemma in_nd d : in_cls nd_c d = digit d. Proof. apply (in_prop PNd). Qed.
Lemma backin_shape : rx_re GL_BACKIN = RSeq (RGroup 1 (RCls space_c)) (RSeq (RCls (one 39)) (RSeq (RGroup 2 (RSeq (RSeq (RCls nd_c) (RStar true (RCls nd_c))) (RAlt letter_re REps))) (RSeq (RAssert WB) (RNLook quote_re)))).
Proof. reflexivity. Qed.
Definition tail_k (t0 : str) : mst -> option mst := fun s => m (RAlt letter_re REps) s (end_k t0).
Lemma tail_is t0 b t cs : tail_k t0 (mk_mst b t cs) = match match t with c :: r => if letter c then end_k t0 (mk_mst (c :: b) r cs) else None | [] => None end with Some y => Some y | None => end_k t0 (mk_mst b t cs) end.
Proof. unfold tail_k. rewrite m_alt, m_eps. destruct (one_letter b cs (end_k t0)) as [N1 C1]. destruct t as [|c t]; [rewrite N1; reflexivity|rewrite C1; reflexivity]. Qed.
Lemma inside t0 x y b t cs : digit x = true -> digit y = true -> end_k t0 (mk_mst (x :: b) (y :: t) cs) = None.
Proof. intros Hx Hy. rewrite end_is. unfold ends_word. cbn [hd_error word_here]. rewrite (digit_word x Hx), (digit_word y Hy). reflexivity. Qed.
Lemma digits_star t0 b d w r cs : digit d = true -> forallb digit w = true -> match r with c :: _ => digit c = false | [] => True end ->
  m (RStar true (RCls nd_c)) (mk_mst (d :: b) (w ++ r) cs) (tail_k t0) = tail_k t0 (mk_mst (rev w ++ d :: b) r cs).
Proof.
  intros Hd Hw Hr. assert (Hw' : forallb (in_cls nd_c) w = true) by (rewrite forallb_forall in Hw |- *; intros x Hx; rewrite in_nd; apply Hw; exact Hx).
  assert (Hr' : stops nd_c r) by (destruct r; [exact I|cbn [stops]; rewrite in_nd; exact Hr]).
  destruct (tail_k t0 (mk_mst (rev w ++ d :: b) r cs)) as [y|] eqn:F; [apply m_star_greedy; assumption|]. apply m_star_none; [exact Hr'|]. intros w1 w2 Ew. destruct w2 as [|x w2]; [rewrite app_nil_r in Ew; subst w1; exact F|]. cbn [app].
  rewrite Ew, forallb_app in Hw. apply andb_prop in Hw as [Hw1 Hw2]. cbn [forallb] in Hw2. apply andb_prop in Hw2 as [Hx Hw2].
  assert (exists d' v, rev w1 ++ d :: b = d' :: v /\ digit d' = true) as (d' & v & Ev & Hd').
  { destruct w1 as [|d' w1] using rev_ind; [exists d, b; auto|]. exists d', (rev w1 ++ d :: b). rewrite rev_app_distr. split; [reflexivity|]. rewrite forallb_app in Hw1. apply andb_prop in Hw1 as [_ Hw1]. cbn [forallb] in Hw1. rewrite andb_true_r in Hw1. exact Hw1. }
  rewrite tail_is, Ev, (inside t0 d' x) by assumption. destruct w2 as [|x2 w2].
  - cbn [app]. rewrite tail_is in F. rewrite Ew, rev_app_distr in F. cbn [rev app] in F. rewrite <- app_comm_cons in F || idtac. rewrite Ev in F. destruct (letter x); [|reflexivity]. destruct (match r with c :: _ => _ | [] => _ end); [discriminate|]. rewrite F. reflexivity.
  - cbn [app]. cbn [forallb] in Hw2. apply andb_prop in Hw2 as [Hx2 _]. rewrite (inside t0 x x2) by assumption. destruct (letter x); reflexivity.
Qed.
Lemma year_ok : at_ok (rx_re GL_BACKIN) (expand (u "$1&#8217;$2")) year_at.
Proof.
  intros before t. unfold match_at. rewrite backin_shape, m_seq, m_group. unfold year_at. destruct t as [|c t]; [apply m_cls_nil|]. rewrite m_cls, in_space_c. destruct t as [|q t'].
  { destruct (is_ws c); [|reflexivity]. cbn [m_before m_after m_caps]. rewrite m_seq. apply m_cls_nil. }
  destruct (run digit t') as [n r] eqn:E. destruct (run_split _ _ _ _ E) as (Et & Hn & Hr). destruct (is_ws c); [|reflexivity]. cbn [m_before m_after m_caps]. rewrite m_seq, m_cls, in_one. cbn [andb]. destruct (q =? 39) eqn:Eq; [|reflexivity]. cbn [andb].
  rewrite m_seq, m_group, m_seq. fold (end_k t'). fold (tail_k t'). rewrite m_seq. destruct n as [|d w].
  { cbn [app is_empty negb] in Et |- *. subst r. destruct t' as [|x t']; [apply m_cls_nil|]. rewrite m_cls, in_nd, Hr. reflexivity. }
  cbn [forallb] in Hn. apply andb_prop in Hn as [Hd Hw]. cbn [is_empty negb].
  assert (M : forall k cs0 b0, m (RCls nd_c) (mk_mst b0 t' cs0) k = k (mk_mst (d :: b0) (w ++ r) cs0)) by (intros k cs0 b0; rewrite Et; cbn [app]; rewrite m_cls, in_nd, Hd; reflexivity).
  rewrite M, (digits_star t' (q :: c :: before) d w r) by assumption. rewrite tail_is.
  set (cs := [(1%nat, (c :: q :: t', q :: t'))]).
  assert (FIN : forall x rest, t' = x ++ rest -> x <> [] -> exists w0 s, w0 <> [] /\ c :: q :: t' = w0 ++ rest /\ Some (mk_mst (rev x ++ q :: c :: before) rest ((2%nat, (t', rest)) :: cs)) = Some s /\ m_after s = rest /\ expand (u "$1&#8217;$2") (mk_hit_of (c :: q :: t') s) = c :: u "&#8217;" ++ x).
  { intros x rest Ex Hx. exists (c :: q :: x). eexists. split; [discriminate|]. split; [rewrite Ex; reflexivity|]. split; [reflexivity|]. split; [reflexivity|]. unfold mk_hit_of. cbn [m_caps m_after].
    match goal with |- expand _ ?h = _ => change (expand (u "$1&#8217;$2") h) with (group_text (u "1") h ++ u "&#8217;" ++ group_text (u "2") h ++ []) end.
    rewrite (group_1 _ _ [c]), (group_2 _ _ x), app_nil_r; [reflexivity| |].
    - apply (cap_is _ _ _ rest). cbn [find_cap Nat.eqb]. rewrite Ex. reflexivity.
    - apply (cap_is _ _ _ (q :: t')). reflexivity. }
  assert (HB : forall x : str, x <> [] -> hd_error (rev x ++ q :: c :: before) = last_of x None) by (intros x Hx; rewrite last_rev by exact Hx; unfold last_of; destruct (rev x) eqn:Er; [apply (f_equal (@rev N)) in Er; rewrite rev_involutive in Er; contradiction|reflexivity]).
  assert (L1 : rev w ++ d :: q :: c :: before = rev (d :: w) ++ q :: c :: before) by (cbn [rev]; rewrite <- app_assoc; reflexivity). rewrite L1.
  assert (LAST : match (if ends_word (last_of (d :: w) None) r then Some (c :: u "&#8217;" ++ d :: w, r) else None) with
    | Some (o, rest) => exists w0 s, w0 <> [] /\ c :: q :: t' = w0 ++ rest /\ end_k t' (mk_mst (rev (d :: w) ++ q :: c :: before) r cs) = Some s /\ m_after s = rest /\ expand (u "$1&#8217;$2") (mk_hit_of (c :: q :: t') s) = o
    | None => end_k t' (mk_mst (rev (d :: w) ++ q :: c :: before) r cs) = None end).
  { rewrite end_is, HB by discriminate. destruct (ends_word (last_of (d :: w) None) r); [|reflexivity]. apply FIN; [exact Et|discriminate]. }
  destruct r as [|x r]; cbn [take_one map app first_of].
  - cbn [fst snd]. destruct (ends_word (last_of (d :: w) None) []); exact LAST.
  - destruct (letter x) eqn:Lx; cbn [map app first_of fst snd]; [|destruct (ends_word (last_of (d :: w) None) (x :: r)); exact LAST].
    assert (x :: rev (d :: w) ++ q :: c :: before = rev (d :: w ++ [x]) ++ q :: c :: before) as -> by (cbn [rev]; rewrite rev_app_distr; reflexivity).
    rewrite end_is, HB by discriminate. cbn [app]. destruct (ends_word (last_of (d :: w ++ [x]) None) r).
    + apply (FIN (d :: w ++ [x]) r); [rewrite Et; cbn [app]; rewrite <- app_assoc; reflexivity|discriminate].
    + destruct (ends_word (last_of (d :: w) None) (x :: r)); exact LAST.
Qed.
Lemma glyphs_all html5 text : multi_replace text (glyph_replacers html5) = typographic html5 text.
Proof.
  rewrite glyphs_by_rules. unfold typographic. assert (T : forall x, replace_tmpl (rx_re GL_DIM) (u "$1&#215;$2") x = rewritten times_at x) by (intros x; unfold replace_tmpl; apply rewrites, times_ok).
  assert (Y : forall x, replace_tmpl (rx_re GL_BACKIN) (u "$1&#8217;$2") x = rewritten year_at x) by (intros x; unfold replace_tmpl; apply rewrites, year_ok). rewrite T, Y. reflexivity.
Qed.
(** ** No straight apostrophe is left *)
Definition keeps_out (c : N) (H : option N -> str -> option (str * str)) : Prop := forall prev t o r, H prev t = Some (o, r) -> ~ In c t -> ~ In c o /\ ~ In c r.
Lemma out_of c H : keeps_out c H -> forall n prev t, ~ In c t -> ~ In c (rewrite_of H n prev t).
Proof.
  intros K. induction n as [|n IH]; intros prev t Ht; [auto|]. destruct t as [|d t]; [auto|]. cbn [rewrite_of]. destruct (H prev (d :: t)) as [[o r]|] eqn:E.
  - destruct (K _ _ _ _ E Ht) as [Ho Hr]. intros I. apply in_app_or in I as [I|I]; [exact (Ho I)|exact (IH _ _ Hr I)].
  - intros [->|I]; [apply Ht; left; reflexivity|]. apply (IH (Some d) t); [|exact I]. intros I'. apply Ht. right. exact I'.
Qed.
Lemma first_some {A B} (f : A -> option B) l y : first_of f l = Some y -> exists x, In x l /\ f x = Some y.
Proof. induction l as [|x l IH]; cbn [first_of]; [discriminate|]. destruct (f x) eqn:E; [intros H; injection H as <-; exists x; split; [left; reflexivity|exact E]|]. intros H. destruct (IH H) as (x' & I & F). exists x'. split; [right; exact I|exact F]. Qed.
Lemma take_is p t x : In x (take_one p t) -> t = fst x ++ snd x.
Proof. destruct t as [|c t]; cbn [take_one]; [intros []|]. destruct (p c); [intros [<-|[]]; reflexivity|intros []]. Qed.
Lemma leads_is l prev t x : In x (leads l prev t) -> t = fst x ++ snd x.
Proof.
  destruct l as [|p|p|]; cbn [leads]; intros I.
  - destruct I as [<-|[]]. reflexivity.
  - apply (take_is p), I.
  - apply in_app_or in I as [I|[<-|[]]]; [apply (take_is p), I|reflexivity].
  - apply in_app_or in I as [I|I]; [apply (take_is is_ws), I|]. destruct (match prev with Some c => word_char c | None => true end); [destruct I as [<-|[]]; reflexivity|destruct I].
Qed.
Lemma marks_is ps : forall t w r, marks ps t = Some (w, r) -> t = w ++ r.
Proof. induction ps as [|p ps IH]; intros t w r H; [destruct t; injection H as <- <-; reflexivity|]. destruct t as [|c t]; [discriminate|]. cbn [marks] in H. destruct (p c); [|discriminate]. destruct (marks ps t) as [[w' r']|] eqn:E; [|discriminate]. injection H as <- <-. rewrite (IH _ _ _ E). reflexivity. Qed.
Lemma trails_is l t z r : trails l t = Some (z, r) -> t = z ++ r.
Proof. destruct l as [|p|p|q]; cbn [trails]; intros H; [injection H as <- <-; reflexivity| | |destruct (q t); [injection H as <- <-; reflexivity|discriminate]]; destruct t as [|c t]; try discriminate; try (injection H as <- <-; reflexivity); destruct (p c); try discriminate; injection H as <- <-; reflexivity. Qed.
Lemma rule_out c R : ~ In c (r_symbol R) -> keeps_out c (rule_at R).
Proof.
  intros Hs prev t o r H Ht. unfold rule_at in H. apply first_some in H as (x & I & F). apply leads_is in I. destruct (marks (r_mark R) (snd x)) as [[w t1]|] eqn:E; [|discriminate]. apply marks_is in E. destruct (trails (r_trail R) t1) as [[z t2]|] eqn:G; [|discriminate]. apply trails_is in G. injection F as <- <-.
  rewrite I, E, G in Ht. rewrite !in_app_iff in *. tauto.
Qed.
Lemma abbreviation_out c html5 : among (u "<abrcony title="">/m") c = false -> keeps_out c (abbreviation_at html5).
Proof.
  intros Hc prev t o r H Ht. unfold abbreviation_at in H. destruct t as [|d t]; [discriminate|]. destruct (run capital_or_digit t) as [w r0] eqn:E. destruct (run_split _ _ _ _ E) as (-> & _ & _). destruct (_ && _) in H; [|discriminate]. destruct r0 as [|b r1]; [discriminate|]. destruct (run (fun d => negb (d =? 41)) r1) as [x r2] eqn:F. destruct (run_split _ _ _ _ F) as (-> & _ & _). destruct r2 as [|y r3]; [discriminate|]. destruct (b =? 40); [|discriminate]. cbv zeta in H. assert (SO : forall (a a' : str) (z z' : str), Some (a, z) = Some (a', z') -> a' = a /\ z' = z) by (intros a a' z z' Q; injection Q as -> ->; auto). apply SO in H as [-> ->].
  assert (S : forall l, forallb (among (u "<abrcony title="">/m")) l = true -> ~ In c l) by (intros l Hl I; rewrite forallb_forall in Hl; rewrite (Hl c I) in Hc; discriminate).
  assert (G : ~ In c (d :: w) /\ ~ In c x /\ ~ In c r3). { cbn [In] in Ht. rewrite !in_app_iff in Ht. cbn [In] in Ht. rewrite in_app_iff in Ht. cbn [In] in Ht |- *. tauto. } destruct G as (G1 & G2 & G3). split; [|exact G3].
  intros I. destruct html5; repeat match type of I with In c (_ ++ _) => apply in_app_or in I as [I|I] end; try (exact (G1 I)); try (exact (G2 I)); revert I; apply S; vm_compute; reflexivity.
Qed.
Lemma single_gone t : ~ In 39 (rewritten (rule_at single_open) t).
Proof.
  unfold rewritten. generalize (List.length t) as n. intros n. generalize (@None N) as prev. revert t. induction n as [|n IH]; intros t prev; [intros []|]. destruct t as [|c t]; [intros []|]. cbn [rewrite_of].
  assert (E : rule_at single_open prev (c :: t) = if c =? 39 then Some (u "&#8216;", t) else None). { unfold rule_at, single_open. cbn [r_lead r_mark r_trail r_symbol leads first_of snd fst marks]. unfold is. destruct (c =? 39); reflexivity. }
  rewrite E. destruct (N.eqb_spec c 39) as [->|Hc].
  - intros I. apply in_app_or in I as [I|I]; [|exact (IH _ _ I)]. vm_compute in I. repeat (destruct I as [I|I]; [discriminate|]). exact I.
  - intros [I|I]; [exact (Hc I)|exact (IH _ _ I)].
Qed.
Lemma no_apostrophe html5 text : ~ In 39 (multi_replace text (glyph_replacers html5)).
Proof.
  rewrite glyphs_all. unfold typographic. apply out_of; [apply abbreviation_out; reflexivity|].
  set (x := rewritten year_at _). change later_rules with ([single_in_bracket; single_close; single_open] ++ [double_in_bracket; double_close; double_open; ellipsis; ampersand; em_dash; en_dash; trademark; registered; copyright; one_half; one_quarter; three_quarters; degree; plus_minus]).
  unfold by_rules. rewrite fold_left_app. cbn [fold_left]. clearbody x. generalize (rewritten (rule_at single_close) (rewritten (rule_at single_in_bracket) x)) as y. intros y.
  assert (S : forall R t, existsb (N.eqb 39) (r_symbol R) = false -> ~ In 39 t -> ~ In 39 (rewritten (rule_at R) t)).
  { intros R t HR Ht. apply out_of; [|exact Ht]. apply rule_out. intros I. assert (existsb (N.eqb 39) (r_symbol R) = true) as G; [|congruence]. apply existsb_exists. exists 39. split; [exact I|reflexivity]. }
  do 15 (apply S; [vm_compute; reflexivity|]). apply single_gone.
Qed.
