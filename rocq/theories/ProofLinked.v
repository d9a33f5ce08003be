(** The links of a paragraph: marked, and each replaced by a token. *)
From Verif Require ProofHtml.
From Verif Require Import Str Unicode Regex RegexParse RegexSnips RegexTheory RegexAuto RegexGroups Lib ModelBase ModelHtml ModelUrl
  ModelAttrs ModelInline ModelParser SpecRegex ProofRegex ProofCharref SpecParse ProofParse Logic ProofWalk ProofState SpecState ProofMemory ProofCache SpecLinks ProofLinks ProofDoc
  SpecPlain ProofPlain SpecNewlines ProofNewlines ProofParas ProofTags ProofSections ProofBlocks ProofStateEx SpecDoc ProofDocument SpecText ProofText ProofWeave ProofSpan ProofSpanRe ProofSpanText SpecSpans ProofSpanDoc ProofSpanPage
  SpecSigned ProofSigned ProofSignedDoc ProofSignedPage ProofSignedEnd ProofSignedTop ProofPages ProofItems SpecCode ProofCode SpecLinked ProofLinkAuto ProofStock.
#[local] Arguments u : simpl never.

Definition triple := (str * str * str)%type.
Section Stage.
Variables (W : world) (T : textile).
Hypothesis uid_simple : simple_uid (t_uid T).
Notation tok n := (fragment_token T n).
Record fit_link (x v t : str) : Prop := mk_fit_link {
  k_head : exists c r, x = c :: r /\ is_ws c = false /\ ~ In c [40; 91; 123; 33; 58];
  k_quote : ~ In 34 x; k_paren : ~ In 40 x; k_line : ~ In 10 x;
  k_trim : trim x = x; k_dollar : x <> u "$";
  k_quiet : quiet T x;
  k_url : written_url v;
  k_tail : exists pop t', t = pop ++ t' /\ forallb stop_punct pop = true /\ match t' with [] => True | c :: _ => is_ws c = true end;
  k_after : ~ In 34 t /\ ~ In 91 t;
  k_free : uid_free T v /\ uid_free T t }.
Definition fit3 (p : triple) : Prop := fit_link (fst (fst p)) (snd (fst p)) (snd p).
(** ** Marking *)
Definition quoted (p : triple) : str := 34 :: fst (fst p) ++ 34 :: 58 :: snd (fst p) ++ snd p.
Definition marked3 (p : triple) : str := needle (t_uid T) ++ quoted p.
Fixpoint slices (a : str) (l : list triple) : list str :=
  match l with [] => [a] | (x, v, t) :: l' => (a ++ 34 :: x) :: slices (v ++ t) l' end.
Lemma slices_ne a l : slices a l <> []. Proof. destruct l as [|[[x v] t] l]; discriminate. Qed.
Lemma slice_miss before c rest : c <> 34 \/ (exists d r, rest = d :: r /\ d <> 58) -> match_at (rx_re SLICE_RE) before (c :: rest) = None.
Proof.
  intros H. unfold match_at, SLICE_RE. cbn [rx_re]. rewrite m_seq, m_cls. change (mk_cls false [CRange 34 34]) with (ProofParse.one 34). rewrite in_one. destruct (N.eqb_spec c 34) as [->|]; [|reflexivity].
  destruct H as [H|(d & r & -> & H)]; [congruence|]. rewrite m_seq, m_cls. change (mk_cls false [CRange 58 58]) with (ProofParse.one 58). rewrite in_one. apply N.eqb_neq in H. rewrite H. reflexivity.
Qed.
Lemma slice_take before c rest : is_ws c = false -> match_at (rx_re SLICE_RE) before (34 :: 58 :: c :: rest) = Some (mk_mst (58 :: 34 :: before) (c :: rest) []).
Proof.
  intros H. unfold match_at, SLICE_RE. cbn [rx_re]. rewrite m_seq, m_cls. change (mk_cls false [CRange 34 34]) with (ProofParse.one 34). rewrite in_one, N.eqb_refl. rewrite m_seq, m_cls.
  change (mk_cls false [CRange 58 58]) with (ProofParse.one 58). rewrite in_one, N.eqb_refl. rewrite m_look, m_cls. unfold in_cls. cbn [c_neg c_items existsb in_item has_prop]. rewrite H. reflexivity.
Qed.
Lemma at_quote a x a1 c b1 : ~ In 34 a -> ~ In 34 x -> a ++ 34 :: x = a1 ++ c :: b1 -> c <> 34 \/ (a1 = a /\ b1 = x).
Proof.
  intros Ha Hx E. destruct (N.eq_dec c 34) as [->|]; [right|left; auto]. apply app_eq_app in E as (z & [[E1 E2]|[E1 E2]]).
  - destruct z as [|d z]; cbn [app] in E2.
    + injection E2 as ->. rewrite app_nil_r in E1. auto.
    + injection E2 as <- E2. exfalso. apply Ha. rewrite E1. apply in_or_app. right. left. reflexivity.
  - destruct z as [|d z]; cbn [app] in E2.
    + injection E2 as ->. rewrite app_nil_r in E1. auto.
    + injection E2 as <- E2. exfalso. apply Hx. rewrite E2. apply in_or_app. right. left. reflexivity.
Qed.
Lemma url_first v : written_url v -> exists c r, v = c :: r /\ In c url_chars.
Proof.
  intros (a & c & -> & Hc & Ha). destruct a as [|d a]; [exists c, []; split; [reflexivity|unfold url_chars; apply in_or_app; left; exact Hc]|]. exists d, (a ++ [c]). split; [reflexivity|]. apply Ha. left. reflexivity.
Qed.
Lemma url_char_facts : forallb (fun c => negb (is_ws c) && in_cls stop_cls c && negb (existsb (N.eqb c) [34; 38; 60; 62; 91; 93; 40; 41; 10])) url_chars = true.
Proof. vm_compute. reflexivity. Qed.
Lemma url_char c : In c url_chars -> is_ws c = false /\ in_cls stop_cls c = true /\ ~ In c [34; 38; 60; 62; 91; 93; 40; 41; 10].
Proof.
  intros H. pose proof url_char_facts as F. rewrite forallb_forall in F. specialize (F c H). apply andb_prop in F as [F F3]. apply andb_prop in F as [F1 F2]. apply negb_true_iff in F1, F3. repeat split; auto.
  intros I. assert (existsb (N.eqb c) [34; 38; 60; 62; 91; 93; 40; 41; 10] = true); [|congruence]. apply existsb_exists. exists c. split; [exact I|apply N.eqb_refl].
Qed.
Lemma url_in v : written_url v -> forall c, In c v -> In c url_chars.
Proof. intros (a & c & -> & Hc & Ha) d Hd. apply in_app_iff in Hd as [Hd|[<-|[]]]; [auto|]. unfold url_chars. apply in_or_app. left. exact Hc. Qed.
Lemma url_without v d : written_url v -> In d [34; 38; 60; 62; 91; 93; 40; 41; 10] -> ~ In d v.
Proof. intros H Hd I. apply (url_in v H) in I. apply url_char in I as (_ & _ & I). contradiction. Qed.
Lemma split_links l : (forall p, In p l -> fit3 p) -> forall a before last acc, ~ In 34 a ->
  split_go 1 (scan (rx_re SLICE_RE) before (a ++ flat_map quoted l) O last) acc = Some (slices (rev acc ++ a) l).
Proof.
  induction l as [|[[x v] t] l IH]; intros Hl a before last acc Ha.
  - cbn [flat_map slices]. destruct a as [|c a].
    + cbn [app]. rewrite scan_nil. destruct last; reflexivity || (replace (match_at (rx_re SLICE_RE) before []) with (@None mst) by reflexivity; cbn [split_go]; rewrite app_nil_r; reflexivity).
    + rewrite scan_pass; [|discriminate|]. 2:{ intros b d e E. apply slice_miss. left. intros ->. apply Ha. rewrite E. apply in_or_app. right. left. reflexivity. }
      rewrite split_go_lits, scan_nil. replace (match_at (rx_re SLICE_RE) (rev (c :: a) ++ before) []) with (@None mst) by reflexivity. cbn [split_go]. rewrite rev_app_distr, rev_involutive. reflexivity.
  - pose proof (Hl _ (or_introl eq_refl)) as [(c & r & Ex & Hc & Hc2) H34 _ _ _ _ _ Hv _ [Ht _] _]. cbn [fst snd] in *.
    destruct (url_first v Hv) as (d & v' & Ev & Hd). destruct (url_char d Hd) as (Hd1 & _).
    cbn [flat_map]. unfold quoted at 1. cbn [fst snd]. 
    replace (a ++ (34 :: x ++ 34 :: 58 :: v ++ t) ++ flat_map quoted l) with ((a ++ 34 :: x) ++ [34; 58] ++ (v ++ t) ++ flat_map quoted l) by (repeat (rewrite <- ?app_assoc; cbn [app]); reflexivity).
    rewrite scan_pass; [|destruct a; discriminate|].
    2:{ intros a1 y b1 E. apply slice_miss. destruct (at_quote a x a1 y b1 Ha H34 E) as [?|[-> ->]]; [left; auto|]. right. exists c, (r ++ [34; 58] ++ (v ++ t) ++ flat_map quoted l). split; [rewrite Ex; reflexivity|]. intros ->. apply Hc2. cbn [In]. tauto. }
    rewrite split_go_lits. rewrite (scan_take _ _ [34; 58] _ (mk_mst (58 :: 34 :: rev (a ++ 34 :: x) ++ before) ((v ++ t) ++ flat_map quoted l) [])); [|discriminate| |reflexivity].
    2:{ rewrite Ev. cbn [app]. apply slice_take. exact Hd1. }
    cbn [split_go seq Nat.sub map forallb]. rewrite (IH (fun p Hp => Hl p (or_intror Hp))).
    + cbn [rev app slices]. rewrite rev_app_distr, rev_involutive, <- app_assoc. reflexivity.
    + intros F. apply in_app_iff in F as [F|F]; [|contradiction]. revert F. apply url_without; [exact Hv|]. cbn [In]. tauto.
Qed.
Fixpoint marked_slices (a : str) (l : list triple) : list str :=
  match l with [] => [] | (x, v, t) :: l' => (a ++ needle (t_uid T) ++ 34 :: x) :: marked_slices (v ++ t) l' end.
Fixpoint last_slice (a : str) (l : list triple) : str := match l with [] => a | (x, v, t) :: l' => last_slice (v ++ t) l' end.
Lemma slices_last l : forall a, slices a l = removelast (slices a l) ++ [last_slice a l].
Proof.
  induction l as [|[[x v] t] l IH]; intros a; [reflexivity|]. cbn [slices last_slice]. pose proof (slices_ne (v ++ t) l) as Hn. specialize (IH (v ++ t)). destruct (slices (v ++ t) l) as [|y z] eqn:E; [congruence|].
  change (removelast (?p :: y :: z)) with (p :: removelast (y :: z)). cbn [app]. f_equal. exact IH.
Qed.
Lemma mark_all fuel l : (0 < fuel)%nat -> (forall p, In p l -> fit3 p) -> forall a s, mapM (mark_slice T fuel) (removelast (slices a l)) s = Ret (marked_slices a l) s.
Proof.
  intros Hf. induction l as [|[[x v] t] l IH]; intros Hl a s; [reflexivity|]. cbn [slices marked_slices]. pose proof (slices_ne (v ++ t) l) as Hn. destruct (slices (v ++ t) l) as [|y z] eqn:E; [congruence|].
  change (removelast (?p :: y :: z)) with (p :: removelast (y :: z)). rewrite <- E. cbn [mapM]. pose proof (Hl _ (or_introl eq_refl)) as [(c & r & Ex & Hc & Hc2) H34 _ _ _ _ _ _ _ _ _]. cbn [fst snd] in *.
  unfold bind at 1. rewrite marking_nearest; auto; [|rewrite Ex; discriminate|rewrite Ex; apply delta_first; exact Hc]. unfold bind. rewrite IH by (intros p Hp; apply Hl; right; exact Hp). unfold ret.
  do 2 f_equal. unfold needle. change (u "linkStartMarker:""") with (u "linkStartMarker:" ++ [34]). rewrite <- !app_assoc. reflexivity.
Qed.
Lemma join_marked l : forall a, join (u """:") (marked_slices a l ++ [last_slice a l]) = a ++ flat_map marked3 l.
Proof.
  induction l as [|[[x v] t] l IH]; intros a; [cbn [marked_slices last_slice app join flat_map]; rewrite app_nil_r; reflexivity|]. cbn [marked_slices last_slice app flat_map].
  specialize (IH (v ++ t)). destruct (marked_slices (v ++ t) l ++ [last_slice (v ++ t) l]) as [|y z] eqn:E; [destruct (marked_slices (v ++ t) l); discriminate|].
  rewrite join_two, IH. unfold marked3, quoted. cbn [fst snd]. change (u """:") with [34; 58]. repeat (rewrite <- ?app_assoc; cbn [app]). reflexivity.
Qed.
Lemma marks fuel a l s : (0 < fuel)%nat -> ~ In 34 a -> l <> [] -> (forall p, In p l -> fit3 p) -> mark_start_of_links T fuel (a ++ flat_map quoted l) s = Ret (a ++ flat_map marked3 l) s.
Proof.
  intros Hf Ha Hn Hl. unfold mark_start_of_links, splitM, split_rx, segs. change (rx_len SLICE_RE) with 1%nat. rewrite split_links by auto. cbn [rev app]. unfold bind at 1. cbn [of_opt ret].
  destruct l as [|[[x v] t] l]; [congruence|]. pose proof (mark_all fuel ((x, v, t) :: l) Hf Hl a s) as M. pose proof (slices_last ((x, v, t) :: l) a) as L. cbn [slices] in L, M |- *.
  pose proof (slices_ne (v ++ t) l) as Hs. destruct (slices (v ++ t) l) as [|y z] eqn:E; [congruence|]. unfold bind. rewrite M. unfold ret. do 2 f_equal. rewrite <- join_marked. do 3 f_equal.
  rewrite L. apply last_last.
Qed.
(** ** One link *)
Lemma bind_ret {A B} (a : A) (k : A -> M B) s : bind (ret a) k s = k a s. Proof. reflexivity. Qed.
Lemma m_any c before rest cs k : m any_re (mk_mst before (c :: rest) cs) k = k (mk_mst (c :: before) rest cs).
Proof.
  unfold any_re. rewrite m_alt, !m_cls. change (mk_cls true [CRange 10 10]) with no_nl. rewrite in_no_nl. change (mk_cls false [CRange 10 10]) with (ProofParse.one 10). rewrite in_one.
  destruct (N.eqb_spec c 10); cbn [negb]; [reflexivity|]. destruct (k _); reflexivity.
Qed.
Lemma m_any_lazy k y : forall w before rest cs,
  (forall w1 x w2, w = w1 ++ x :: w2 -> k (mk_mst (rev w1 ++ before) (x :: w2 ++ rest) cs) = None) ->
  k (mk_mst (rev w ++ before) rest cs) = Some y ->
  m (RStar false any_re) (mk_mst before (w ++ rest) cs) k = Some y.
Proof.
  intros w before rest cs Hn Hk. rewrite m_star. cbn [m_after].
  assert (G : forall w f before, (forall w1 x w2, w = w1 ++ x :: w2 -> k (mk_mst (rev w1 ++ before) (x :: w2 ++ rest) cs) = None) ->
              k (mk_mst (rev w ++ before) rest cs) = Some y -> (List.length w <= List.length f)%nat ->
              star_loop false any_re k f (mk_mst before (w ++ rest) cs) = Some y).
  { clear Hk Hn w before. induction w as [|x w IH]; intros f before Hn Hk Hlen.
    - destruct f as [|z f]; [exact Hk|]. rewrite star_loop_cons. cbn [app]. cbn [rev app] in Hk. rewrite Hk. reflexivity.
    - destruct f as [|z f]; [cbn in Hlen; lia|]. rewrite star_loop_cons. cbn [app]. pose proof (Hn [] x w eq_refl) as E. cbn [rev app] in E. rewrite E. rewrite m_any. apply IH.
      + intros w1 a w2 ->. specialize (Hn (x :: w1) a w2 eq_refl). cbn [rev] in Hn. rewrite <- app_assoc in Hn. exact Hn.
      + cbn [rev] in Hk. rewrite <- app_assoc in Hk. exact Hk.
      + cbn in Hlen. lia. }
  apply G; auto. rewrite app_length. lia.
Qed.
Definition link_tail : re := RSeq (RCls (ProofParse.one 34)) (RSeq (RGroup 2 (RStar false any_re)) (RSeq (RCls (ProofParse.one 34)) (RSeq (RCls (ProofParse.one 58)) (RGroup 3 (RStar true (RCls stop_cls)))))).
Definition link_pattern : re := RSeq (RAlt (RGroup 1 (RCls (ProofParse.one 91))) REps) (lit_then (needle (t_uid T)) link_tail).
Lemma needle_first : exists c r, needle (t_uid T) = c :: r /\ c <> 91.
Proof. destruct uid_simple as (id & -> & _). eexists _, _. split; [reflexivity|]. discriminate. Qed.
Lemma pattern_at c before rest : c <> 91 -> match_at link_pattern before (c :: rest) = match_at (lit_then (needle (t_uid T)) link_tail) before (c :: rest).
Proof.
  intros H. unfold match_at, link_pattern. rewrite m_seq, m_alt_r; [rewrite m_eps; reflexivity|]. rewrite m_group, m_cls, in_one. apply N.eqb_neq in H. rewrite H. reflexivity.
Qed.
Lemma link_match x v rest before : ~ In 34 x -> forallb (in_cls stop_cls) v = true -> stops stop_cls rest ->
  match_at link_pattern before ((needle (t_uid T) ++ 34 :: x ++ 34 :: 58 :: v) ++ rest) =
  Some (mk_mst (rev (needle (t_uid T) ++ 34 :: x ++ 34 :: 58 :: v) ++ before) rest [(3%nat, (v ++ rest, rest)); (2%nat, (x ++ 34 :: 58 :: v ++ rest, 34 :: 58 :: v ++ rest))]).
Proof.
  intros Hx Hv Hr. assert ((needle (t_uid T) ++ 34 :: x ++ 34 :: 58 :: v) ++ rest = needle (t_uid T) ++ 34 :: x ++ 34 :: 58 :: v ++ rest) as -> by (repeat (rewrite <- ?app_assoc; cbn [app]); reflexivity).
  destruct needle_first as (c & r & En & Hc). pose proof (pattern_at c before (r ++ 34 :: x ++ 34 :: 58 :: v ++ rest) Hc) as P. change (c :: r ++ ?z) with ((c :: r) ++ z) in P. rewrite <- En in P. rewrite P. clear P.
  unfold match_at. rewrite m_lit. unfold link_tail. rewrite m_seq, m_cls, in_one, N.eqb_refl, m_seq, m_group.
  apply m_any_lazy.
  - intros w1 d w2 ->. cbn [m_before m_after m_caps]. rewrite m_seq, m_cls, in_one. destruct (N.eqb_spec d 34) as [->|]; [destruct Hx; apply in_or_app; right; left; reflexivity|reflexivity].
  - cbn [m_before m_after m_caps]. rewrite m_seq, m_cls, in_one, N.eqb_refl, m_seq, m_cls, in_one, N.eqb_refl, m_group. apply m_star_greedy; auto. cbn [m_before m_after m_caps]. do 2 f_equal.
    repeat (progress (rewrite ?rev_app_distr, <- ?app_assoc; cbn [rev app])). reflexivity.
Qed.
(** *** The text of a link *)
Lemma block_dead : exists atts, rx_re LINK_BLOCK_RE = RSeq (RAssert SOT) (RSeq (RGroup 1 (RAlt atts REps)) (RSeq (RStar true (RCls space_cls)) (RSeq (RGroup 2 (RAlt (RGroup 3 (RSeq (RCls (ProofParse.one 33)) (RSeq (RSeq (RCls no_nl) (RStar true (RCls no_nl))) (RCls (ProofParse.one 33))))) (RSeq (RCls no_nl) (RStar false (RCls no_nl)))))
   (RSeq (RAlt (RSeq (RCls (ProofParse.one 40)) (RSeq (RGroup 4 (RSeq (RCls (mk_cls true [CRange 41 41])) (RStar false (RCls (mk_cls true [CRange 41 41]))))) (RCls (ProofParse.one 41)))) REps) (RAssert EOT))))) /\
  forall c, ~ In c [40; 91; 123] -> dead atts c = true.
Proof.
  eexists. split; [reflexivity|]. intros c Hc. assert (c <> 40 /\ c <> 91 /\ c <> 123) as (H1 & H2 & H3) by (cbn [In] in Hc; repeat split; intros ->; tauto).
  assert (forall d, c <> d -> in_cls (mk_cls false [CRange d d]) c = false) as Q. { intros d Hd. change (mk_cls false [CRange d d]) with (ProofParse.one d). rewrite in_one. apply N.eqb_neq. exact Hd. }
  unfold dead. cbn [verdict fst snd]. rewrite !(Q 40), !(Q 91), !(Q 123) by auto. reflexivity.
Qed.
Lemma block_label c r : is_ws c = false -> ~ In c [40; 91; 123; 33; 58] -> ~ In 40 (c :: r) -> ~ In 10 (c :: r) ->
  exists h, captures (rx_re LINK_BLOCK_RE) (c :: r) = Some h /\ cap_or 1 h = [] /\ cap_or 2 h = c :: r /\ cap_or 4 h = [].
Proof.
  intros Hw Hc H40 H10. destruct block_dead as (atts & E & Hd). rewrite E. 
  assert (match_at (RSeq (RAssert SOT) (RSeq (RGroup 1 (RAlt atts REps)) (RSeq (RStar true (RCls space_cls)) (RSeq (RGroup 2 (RAlt (RGroup 3 (RSeq (RCls (ProofParse.one 33)) (RSeq (RSeq (RCls no_nl) (RStar true (RCls no_nl))) (RCls (ProofParse.one 33))))) (RSeq (RCls no_nl) (RStar false (RCls no_nl)))))
   (RSeq (RAlt (RSeq (RCls (ProofParse.one 40)) (RSeq (RGroup 4 (RSeq (RCls (mk_cls true [CRange 41 41])) (RStar false (RCls (mk_cls true [CRange 41 41]))))) (RCls (ProofParse.one 41)))) REps) (RAssert EOT)))))) [] (c :: r)
    = Some (mk_mst (rev r ++ [c]) [] [(2%nat, (c :: r, [])); (1%nat, (c :: r, c :: r))])) as M.
  { unfold match_at. rewrite m_seq, m_assert. cbn [assert_holds is_empty]. rewrite m_seq, m_group, m_alt_r by (apply m_dead, Hd; cbn [In] in *; tauto). rewrite m_eps. cbn [m_before m_after m_caps].
    rewrite m_seq. refine (m_star_greedy _ _ _ [] _ (c :: r) _ eq_refl _ _).
    { cbn [stops]. unfold in_cls, space_cls. cbn [c_neg c_items existsb in_item has_prop]. rewrite Hw. reflexivity. }
    cbn [rev app m_before m_after m_caps]. rewrite m_seq, m_group, m_alt_r.
    2:{ rewrite m_group, m_seq, m_cls, in_one. destruct (N.eqb_spec c 33) as [->|]; [destruct Hc; cbn [In]; tauto|reflexivity]. }
    rewrite m_seq, m_cls, in_no_nl. destruct (N.eqb_spec c 10) as [->|]; [destruct H10; left; reflexivity|]. cbn [negb]. rewrite <- (app_nil_r r) at 1. apply m_star_lazy.
    - apply forallb_forall. intros d Hd'. rewrite in_no_nl. destruct (N.eqb_spec d 10) as [->|]; [destruct H10; right; exact Hd'|reflexivity].
    - intros w1 d w2 ->. cbn [m_before m_after m_caps]. rewrite m_seq, m_alt_r.
      + rewrite m_eps, m_assert. cbn [assert_holds is_empty]. reflexivity.
      + rewrite m_seq, m_cls, in_one. destruct (N.eqb_spec d 40) as [->|]; [destruct H40; right; apply in_or_app; right; left; reflexivity|reflexivity].
    - cbn [m_before m_after m_caps]. rewrite m_seq, m_alt_r by reflexivity. rewrite m_eps, m_assert. cbn [assert_holds is_empty]. reflexivity. }
  apply captures_first in M. eexists. split; [exact M|]. unfold cap_or, cap_opt, mk_hit_of, cap_text. cbn [h_caps m_caps find_cap Nat.eqb option_map]. repeat split.
  - pose proof (cap_str_app [] (c :: r)) as Q. exact Q.
  - pose proof (cap_str_app (c :: r) []) as Q. rewrite app_nil_r in Q. exact Q.
Qed.
(** *** The address *)
Lemma trim_tail url v pre counts s : (exists a c, v = a ++ [c] /\ stop_punct c = false /\ c <> 62 /\ c <> 93 /\ c <> 41) -> forall q acc n first, forallb stop_punct q = true -> (List.length q < n)%nat ->
  trim_url n url (q ++ rev v) acc pre counts first s = Ret (rev v, rev q ++ acc, pre) s.
Proof.
  intros (a & c & -> & Hc & H1 & H2 & H3). rewrite rev_app_distr. cbn [rev app].
  induction q as [|d q IH]; intros acc n first Hq Hn; (destruct n as [|n]; [cbn in Hn; lia|]); cbn [app trim_url].
  - rewrite Hc. apply N.eqb_neq in H1, H2, H3. rewrite H1, H2, H3. reflexivity.
  - cbn [forallb] in Hq. apply andb_prop in Hq as [Hd Hq]. rewrite Hd. rewrite IH; [|exact Hq|cbn in Hn; lia]. cbn [rev]. rewrite <- app_assoc. reflexivity.
Qed.
Lemma url_end v : written_url v -> exists a c, v = a ++ [c] /\ stop_punct c = false /\ c <> 62 /\ c <> 93 /\ c <> 41.
Proof.
  intros (a & c & -> & Hc & _). exists a, c. split; [reflexivity|]. assert (forallb (fun c => negb (stop_punct c) && negb (c =? 62) && negb (c =? 93) && negb (c =? 41)) url_last = true) as F by (vm_compute; reflexivity).
  rewrite forallb_forall in F. specialize (F c Hc). repeat (apply andb_prop in F as [F ?]). repeat match goal with H : negb _ = true |- _ => apply negb_true_iff in H end. repeat split; auto; apply N.eqb_neq; auto.
Qed.
Lemma esc_same v : ~ In 38 v -> ~ In 60 v -> ~ In 62 v -> esc v = v.
Proof.
  intros H1 H2 H3. unfold esc, encode_html. induction v as [|c v IH]; [reflexivity|]. cbn [flat_map]. rewrite IH by (intros F; first [apply H1; right; exact F|apply H2; right; exact F|apply H3; right; exact F]).
  assert (c <> 38 /\ c <> 60 /\ c <> 62) as (Q1 & Q2 & Q3) by (repeat split; intros ->; first [apply H1; left; reflexivity|apply H2; left; reflexivity|apply H3; left; reflexivity]).
  unfold encode_char. apply N.eqb_neq in Q1, Q2, Q3. rewrite Q1, Q2, Q3. cbn [andb]. reflexivity.
Qed.
Lemma unrestrict v s : written_url v -> unrestrict_url T v s = Ret v s.
Proof.
  intros H. unfold unrestrict_url. destruct (t_restricted T); [|reflexivity]. rewrite <- (esc_same v) at 1 by (apply url_without; [exact H|cbn [In]; tauto]). apply ProofHtml.unescape_url_ok. apply url_without; [exact H|cbn [In]; tauto].
Qed.
Lemma find_char_none c t : ~ In c t -> find_char c t = None.
Proof. induction t as [|d t IH]; intros H; [reflexivity|]. cbn [find_char]. destruct (N.eqb_spec d c) as [->|]; [destruct H; left; reflexivity|]. rewrite IH; [reflexivity|]. intros F. apply H. right. exact F. Qed.
Lemma rfind_char_none c t : ~ In c t -> rfind_char c t = None.
Proof. induction t as [|d t IH]; intros H; [reflexivity|]. cbn [rfind_char]. rewrite IH by (intros F; apply H; right; exact F). destruct (N.eqb_spec d c) as [->|]; [destruct H; left; reflexivity|reflexivity]. Qed.
Lemma encode_ls y : ~ In 9 y -> ~ In 10 y -> ~ In 13 y -> encode_html y true true = entities true y.
Proof.
  intros H1 H2 H3. rewrite <- entities_encode. unfold encode_html. induction y as [|c y IH]; [reflexivity|]. cbn [flat_map]. rewrite IH by (intros F; first [apply H1; right; exact F|apply H2; right; exact F|apply H3; right; exact F]). f_equal.
  assert (c <> 9 /\ c <> 10 /\ c <> 13) as (Q1 & Q2 & Q3) by (repeat split; intros ->; first [apply H1; left; reflexivity|apply H2; left; reflexivity|apply H3; left; reflexivity]).
  unfold encode_char. apply N.eqb_neq in Q1, Q2, Q3. rewrite Q1, Q2, Q3. cbn [andb]. reflexivity.
Qed.
Lemma target_ok v y : written_url v -> target_of W T v y -> is_empty (url_scheme (url_parse W v)) || scheme_allowed T (url_scheme (url_parse W v)) = true /\ url_to_string (url_parse W v) = y /\ encode_html y true true = entities true y.
Proof.
  intros Hv [(sch & Hp & Hs & H9 & H10 & H13)|(Hp & Hj & H63 & H35 & ->)].
  - split; [|split; [unfold url_parse; rewrite Hp; reflexivity|apply encode_ls; auto]]. apply scheme_ok_iff. right. unfold url_parse. rewrite Hp. exact Hs.
  - unfold url_parse, make_relative_url. rewrite Hp. destruct (w_join W v) as [j|]; [|congruence]. cbn [option_map url_scheme is_empty orb url_to_string]. rewrite (find_char_none 63 v), (rfind_char_none 35 v) by auto. split; [reflexivity|].
    split; [destruct (find_char 63 j); destruct (rfind_char 35 j); reflexivity|]. apply encode_ls.
    + intros F. apply (url_in v Hv) in F. apply url_char in F as (F & _). discriminate.
    + apply url_without; [exact Hv|cbn [In]; tauto].
    + intros F. apply (url_in v Hv) in F. apply url_char in F as (F & _). discriminate.
Qed.
(** *** The tag *)
Definition anchor (i : N) (x : str) : str := u "<a href=""" ++ url_token T i ++ u """" ++ rel_text T ++ u ">" ++ x ++ u "</a>".
Definition inert_char (c : N) : Prop := encode_char false true c = [c] /\ c <> 34.
Lemma quote_inert t : (forall c, In c t -> inert_char c) -> quoteattr t = u """" ++ t ++ u """".
Proof.
  intros H. unfold quoteattr. assert (encode_html t false true = t) as ->.
  { unfold encode_html. induction t as [|c t IH]; [reflexivity|]. cbn [flat_map]. rewrite IH by (intros d Hd; apply H; right; exact Hd). destruct (H c (or_introl eq_refl)) as [-> _]. reflexivity. }
  destruct (contains_char 34 t) eqn:E; [|reflexivity]. apply contains_char_in in E. apply H in E as [_ E]. congruence.
Qed.
Lemma inert_list l : forallb (fun c => match encode_char false true c with [d] => (d =? c) && negb (c =? 34) | _ => false end) l = true -> forall c, In c l -> inert_char c.
Proof.
  intros H c Hc. rewrite forallb_forall in H. specialize (H c Hc). cbn beta in H. unfold inert_char. destruct (encode_char false true c) as [|d [|]]; try discriminate. apply andb_prop in H as [H1 H2]. apply N.eqb_eq in H1. apply negb_true_iff, N.eqb_neq in H2. subst. auto.
Qed.
Lemma inert_token i c : In c (url_token T i) -> inert_char c.
Proof.
  assert (forall c, In c (u "textileRef:" ++ id_chars ++ u ":0123456789:url") -> inert_char c) as Q by (apply inert_list; vm_compute; reflexivity).
  unfold url_token. destruct uid_simple as (id & -> & Hid). intros H. apply Q. apply in_app_or in H as [H|H].
  - apply in_app_or in H as [H|H]; [apply in_or_app; left; exact H|]. apply in_app_or in H as [H|H]; [apply in_or_app; right; apply in_or_app; left; auto|]. do 2 (apply in_or_app; right). destruct H as [<-|[]]. left. reflexivity.
  - do 2 (apply in_or_app; right). apply in_app_or in H as [H|H].
    + destruct (dec_spec i) as (_ & Hd & _). rewrite forallb_forall in Hd. apply Hd in H. change (u ":0123456789:url") with [58; 48; 49; 50; 51; 52; 53; 54; 55; 56; 57; 58; 117; 114; 108]. apply andb_prop in H as [H1 H2]. apply N.leb_le in H1, H2. cbn [In]. lia.
    + change (u ":0123456789:url") with (u ":0123456789" ++ u ":url"). apply in_or_app. right. exact H.
Qed.
Hypothesis Hrel : rel_ok T.
Lemma inert_rel r c : t_rel T = Some r -> In c r -> inert_char c.
Proof. intros E H. apply (inert_list (u "abcdefghijklmnopqrstuvwxyzABCDEFGHIJKLMNOPQRSTUVWXYZ0123456789 -")); [vm_compute; reflexivity|]. exact (Hrel r E c H). Qed.
Lemma gen_anchor i x : generate_tag (u "a") (Some x) (match t_rel T with Some rel => attr_insert (u "rel") rel (attr_insert (u "href") (url_token T i) []) | None => attr_insert (u "href") (url_token T i) [] end) = anchor i x.
Proof.
  unfold anchor, rel_text. pose proof (quote_inert (url_token T i) (fun c => inert_token i c)) as Q. pose proof inert_rel as R.
  destruct (t_rel T) as [rel|].
  - assert (attr_insert (u "rel") rel (attr_insert (u "href") (url_token T i) []) = [(u "href", url_token T i); (u "rel", rel)]) as -> by reflexivity.
    pose proof (quote_inert rel (fun c => R rel c eq_refl)) as Q2.
    change (generate_tag (u "a") (Some x) [(u "href", url_token T i); (u "rel", rel)]) with (((u "<" ++ u "a") ++ (u " " ++ u "href" ++ u "=" ++ quoteattr (url_token T i)) ++ (u " " ++ u "rel" ++ u "=" ++ quoteattr rel) ++ []) ++ u ">" ++ x ++ u "</" ++ u "a" ++ u ">").
    rewrite Q, Q2. repeat (rewrite <- ?app_assoc). reflexivity.
  - assert (attr_insert (u "href") (url_token T i) [] = [(u "href", url_token T i)]) as -> by reflexivity.
    change (generate_tag (u "a") (Some x) [(u "href", url_token T i)]) with (((u "<" ++ u "a") ++ (u " " ++ u "href" ++ u "=" ++ quoteattr (url_token T i)) ++ []) ++ u ">" ++ x ++ u "</" ++ u "a" ++ u ">").
    rewrite Q. repeat (rewrite <- ?app_assoc). reflexivity.
Qed.
Definition kept_of (y x : str) (n : N) : list entry := [Address (entities true y); Kept (anchor (n + 1) x)].
Lemma stop_url v pop : written_url v -> forallb stop_punct pop = true -> forallb (in_cls stop_cls) (v ++ pop) = true /\ ~ In 93 (v ++ pop).
Proof.
  intros Hv Hp. assert (forall c, stop_punct c = true -> In c url_chars) as Q.
  { intros c Hc. unfold stop_punct in Hc. apply contains_char_in in Hc. change (u "!?:;.,") with [33; 63; 58; 59; 46; 44] in Hc. unfold url_chars. apply in_or_app. right. change (u ".:?,;!") with [46; 58; 63; 44; 59; 33]. cbn [In] in *. intuition (subst; tauto). }
  assert (forall c, In c (v ++ pop) -> In c url_chars) as R. { intros c Hc. apply in_app_or in Hc as [Hc|Hc]; [apply (url_in v Hv); exact Hc|]. rewrite forallb_forall in Hp. auto. }
  split; [apply forallb_forall; intros c Hc; apply url_char; auto|]. intros F. apply R in F. apply url_char in F as (_ & _ & F). apply F. cbn [In]. tauto.
Qed.
Lemma f_link_ok (x v y pop rest before : str) s : (exists c r, x = c :: r /\ is_ws c = false /\ ~ In c [40; 91; 123; 33; 58]) -> ~ In 34 x -> ~ In 40 x -> ~ In 10 x -> trim x = x -> x <> u "$" -> quiet T x -> written_url v -> target_of W T v y ->
  forallb stop_punct pop = true ->
  f_link W T (mk_hit_of ((needle (t_uid T) ++ 34 :: x ++ 34 :: 58 :: v ++ pop) ++ rest)
    (mk_mst (rev (needle (t_uid T) ++ 34 :: x ++ 34 :: 58 :: v ++ pop) ++ before) rest [(3%nat, ((v ++ pop) ++ rest, rest)); (2%nat, (x ++ 34 :: 58 :: (v ++ pop) ++ rest, 34 :: 58 :: (v ++ pop) ++ rest))])) s =
  Ret (tok (ps_ref_index s + 2) ++ pop) (stocks T (kept_of y x (ps_ref_index s)) s).
Proof.
  intros (c & r & Ex & Hc & Hc2) H34 H40 H10 Htr Hd Hq Hv Hy Hp. unfold f_link, mk_hit_of. 
  unfold cap_or at 1. unfold cap_opt, capx, cap_text. cbn [h_caps m_caps find_cap Nat.eqb option_map of_opt]. unfold bind at 1. cbn [ret]. rewrite !cap_str_app.
  unfold bind at 1. rewrite replace_char_none by exact H10. assert (is_empty x = false) as -> by (rewrite Ex; reflexivity).
  destruct (block_label c r Hc Hc2) as (h & Eh & C1 & C2 & C4); [rewrite <- Ex; exact H40|rewrite <- Ex; exact H10|]. rewrite <- Ex in *. rewrite Eh, C1, C2, C4. assert (is_empty x = false) as Ee by (rewrite Ex; reflexivity). rewrite Ee.
  destruct (stop_url v pop Hv Hp) as [_ H93].
  set (hh := mk_hit _ _). assert (cap_or 1 hh = []) as -> by reflexivity. cbn [ret]. unfold cut_brackets. rewrite (count_none 93) by exact H93. cbn [Nat.ltb Nat.leb].
  unfold bind at 1. unfold cc_set. change (cc_update 93 (Some (N.of_nat 0)) (cc_new [91; 93; 40; 41])) with (Some [(91, None); (93, Some 0); (40, @None N); (41, None)]). cbn [of_opt ret].
  unfold bind at 1. rewrite rev_app_distr. rewrite trim_tail; [|apply url_end; exact Hv| |].
  2:{ rewrite forallb_forall in *. intros d Hd'. apply Hp. apply in_rev. exact Hd'. } 2:{ rewrite rev_length, app_length. lia. }
  rewrite !rev_involutive, app_nil_r. unfold bind at 1. rewrite unrestrict by exact Hv.
  destruct (target_ok v y Hv Hy) as (E1 & E2 & E3). rewrite E1. cbn [negb].
  assert (seqb x (u "$") = false) as ->. { destruct (seqb x (u "$")) eqn:E; auto. apply seqb_eq in E. contradiction. }
  rewrite bind_ret, Htr. change (encode_html [] false false) with (@nil N).
  pose proof Hq as [Q1 Q2 Q3 Q4 Q5].
  assert ((if t_noimage T then ret x else image W T x) s = Ret x s) as Ei.
  { destruct (t_noimage T) eqn:En; [reflexivity|]. unfold image. apply no_match_replaceM. apply Q1. rewrite ?En. unfold stage_rx. apply in_or_app. right. left. reflexivity. }
  unfold bind at 1. rewrite Ei. unfold bind at 1. rewrite span_inert. 2:{ intros q Hq'. apply Q1, stage_in. auto. }
  unfold bind at 1. rewrite (glyphs_quiet T) by exact Hq. rewrite E2.
  unfold bind at 1. rewrite shelve_url_eq. unfold us_to_html_string. cbn [us_to_string]. rewrite E3.
  unfold block_attributes_parse. cbn [is_empty]. rewrite bind_ret. cbn [ba_html_attrs ba_default]. rewrite bind_ret.
  pose proof (gen_anchor (ps_ref_index s + 1) x) as G. unfold url_token in G. 
  unfold bind at 1. rewrite shelve_eq. unfold ret. cbn [app]. rewrite app_nil_r. cbn [ps_ref_index set_ref_index set_ref_cache ps_shelf].
  unfold stocks, kept_of. cbn [fold_left stock]. cbn [ps_ref_index set_ref_index set_ref_cache ps_shelf].
  replace (ps_ref_index s + 2) with (ps_ref_index s + 1 + 1) by lia. unfold fragment_token. rewrite <- G. reflexivity.
Qed.
(** ** All links *)
Definition quad := (link * str * str)%type.
Definition triple_of (q : quad) : triple := (ln_label (fst (fst q)), ln_url (fst (fst q)), snd q).
Definition fit4 (q : quad) : Prop := fit3 (triple_of q) /\ target_of W T (ln_url (fst (fst q))) (snd (fst q)).
Fixpoint joined (l : list quad) : Prop := match l with [] | [_] => True | q :: l' => closes (snd q) /\ joined l' end.
Fixpoint stage_text (n : N) (l : list quad) : str := match l with [] => [] | (k, y, t) :: l' => tok (n + 2) ++ t ++ stage_text (n + 2) l' end.
Fixpoint stage_kept (n : N) (l : list quad) : list entry := match l with [] => [] | (k, y, t) :: l' => kept_of y (ln_label k) n ++ stage_kept (n + 2) l' end.
Lemma needle_free t : uid_free T t -> contains (needle (t_uid T)) t = false.
Proof. intros H. unfold needle. apply contains_more. exact H. Qed.
Lemma needle_without d : d = 32 \/ d = 10 -> ~ In d (needle (t_uid T)).
Proof.
  intros Hd F. unfold needle in F. apply in_app_or in F as [F|F].
  - destruct uid_simple as (id & E & Hid). rewrite E in F. assert (forallb (fun c => negb ((c =? 32) || (c =? 10))) (u "textileRef:" ++ id_chars ++ u ":") = true) as P by (vm_compute; reflexivity).
    assert (In d (u "textileRef:" ++ id_chars ++ u ":")) as G. { apply in_app_or in F as [F|F]; [apply in_or_app; left; exact F|]. apply in_or_app. right. apply in_app_or in F as [F|F]; apply in_or_app; [left|right]; auto. }
    rewrite forallb_forall in P. specialize (P d G). destruct Hd as [->| ->]; discriminate.
  - revert F. destruct Hd as [->| ->]; vm_compute; intuition discriminate.
Qed.
Lemma pass_pattern p before rest : ~ In 91 p -> apart (needle (t_uid T)) p rest -> forall a c b, p = a ++ c :: b -> match_at link_pattern (rev a ++ before) (c :: b ++ rest) = None.
Proof.
  intros H91 Ha a c b E. rewrite pattern_at; [apply (apart_pass _ _ p before rest Ha a c b E)|]. intros ->. apply H91. rewrite E. apply in_or_app. right. left. reflexivity.
Qed.
Lemma pattern_nil before : match_at link_pattern before [] = None.
Proof.
  destruct needle_first as (c & r & E & _). unfold link_pattern, match_at. rewrite m_seq, m_alt_r by reflexivity. rewrite m_eps. rewrite E. reflexivity.
Qed.
Lemma links_yield l : forall before s, (forall q, In q l -> fit4 q) -> joined l ->
  yields link_pattern (f_link W T) before (flat_map marked3 (map triple_of l)) s (stage_text (ps_ref_index s) l) (stocks T (stage_kept (ps_ref_index s) l) s).
Proof.
  induction l as [|[[k y] t] l IH]; intros before s Hl Hj; [apply yields_nil, pattern_nil|].
  destruct (Hl _ (or_introl eq_refl)) as [[F1 F2 F3 F4 F5 F6 F7 F8 (pop & t' & Et & Hp & Ht') [F9 F10] [F11 F12]] Hy]. cbn [triple_of fst snd] in *.
  cbn [map flat_map stage_text stage_kept]. unfold marked3 at 1, quoted. cbn [triple_of fst snd]. set (x := ln_label k) in *. set (v := ln_url k) in *.
  replace ((needle (t_uid T) ++ 34 :: x ++ 34 :: 58 :: v ++ t) ++ flat_map marked3 (map triple_of l)) with ((needle (t_uid T) ++ 34 :: x ++ 34 :: 58 :: v ++ pop) ++ t' ++ flat_map marked3 (map triple_of l)) by (rewrite Et; repeat (rewrite <- ?app_assoc; cbn [app]); reflexivity).
  rewrite Et. rewrite stocks_app. replace (tok (ps_ref_index s + 2) ++ (pop ++ t') ++ stage_text (ps_ref_index s + 2) l) with ((tok (ps_ref_index s + 2) ++ pop) ++ t' ++ stage_text (ps_ref_index s + 2) l) by (repeat (rewrite <- ?app_assoc); reflexivity).
  assert (stops stop_cls (t' ++ flat_map marked3 (map triple_of l))) as Hs.
  { destruct t' as [|c r]; [|cbn [app stops]; rewrite in_stop; unfold url_stop; rewrite Ht'; reflexivity]. cbn [app]. destruct l as [|q l]; [exact I|]. exfalso. cbn [joined] in Hj. destruct Hj as [(a & d & Ea & Hd) _]. rewrite app_nil_r in Et. rewrite Et in Ea.
    cbn [snd] in Ea. subst pop. rewrite forallb_app in Hp. apply andb_prop in Hp as [_ Hp]. cbn [forallb] in Hp. destruct Hd as [->| ->]; discriminate. }
  destruct (stop_url v pop F8 Hp) as [Hst _].
  eapply yields_hit; [| | |apply (f_link_ok x v y pop _ before s); assumption|].
  - destruct needle_first as (c & r & -> & _). discriminate.
  - apply (link_match x (v ++ pop)); assumption.
  - reflexivity.
  - set (s1 := stocks T (kept_of y x (ps_ref_index s)) s). assert (ps_ref_index s1 = ps_ref_index s + 2) as Ei by (unfold s1, stocks, kept_of; cbn [fold_left stock set_ref_cache set_ref_index set_shelf ps_ref_index]; lia). rewrite <- Ei. apply yields_pass; [|apply IH].
    + apply pass_pattern; [intros F; apply F10; rewrite Et; apply in_or_app; right; exact F|]. split.
      * apply needle_free. unfold uid_free in *. rewrite Et in F12. destruct (contains (t_uid T) t') eqn:E; auto. apply contains_split in E as (a & b & ->). rewrite app_assoc in F12. rewrite contains_mid in F12. discriminate.
      * destruct l as [|q l]; [left; reflexivity|]. right. right. cbn [joined] in Hj. destruct Hj as [(a & d & Ea & Hd) _]. cbn [snd] in Ea. rewrite Et in Ea. destruct t' as [|c r] using rev_ind.
        -- exfalso. rewrite app_nil_r in Ea. subst pop. rewrite forallb_app in Hp. apply andb_prop in Hp as [_ Hp]. cbn [forallb] in Hp. destruct Hd as [->| ->]; discriminate.
        -- rewrite app_assoc in Ea. apply app_inj_tail in Ea as [_ ->]. exists r, d. split; [reflexivity|apply needle_without; exact Hd].
    + intros q Hq. apply Hl. right. exact Hq.
    + destruct l as [|q l]; [exact I|]. apply Hj.
Qed.
Lemma stocks_borrowed b es : forall s, stocks T es (set_borrowed b s) = set_borrowed b (stocks T es s).
Proof. unfold stocks. induction es as [|e es IH]; intros s; [reflexivity|]. cbn [fold_left]. rewrite <- IH. f_equal. destruct e; reflexivity. Qed.
Lemma links_ok fuel a l s : (1 < fuel)%nat -> ~ In 34 a -> ~ In 91 a -> uid_free T a -> a = [] \/ closes a -> l <> [] -> (forall q, In q l -> fit4 q) -> joined l ->
  contains (needle (t_uid T)) (a ++ stage_text (ps_ref_index s) l) = false -> @cache_ok (own T) (ps_cache s) -> ps_borrowed s = false ->
  exists c, @cache_ok (own T) c /\ links W T fuel (a ++ flat_map quoted (map triple_of l)) s = Ret (a ++ stage_text (ps_ref_index s) l) (stocks T (stage_kept (ps_ref_index s) l) (set_cache c s)).
Proof.
  intros Hf H34 H91 Hfree Ha Hn Hl Hj Hnew Hc Hb. unfold links. unfold bind at 1. rewrite marks.
  2:lia. 2:exact H34. 2:{ destruct l; [congruence|discriminate]. } 2:{ intros p Hp. apply in_map_iff in Hp as (q & <- & Hq). apply (Hl q Hq). }
  unfold replace_links. destruct (link_re (t_uid T)) as [r|] eqn:Er.
  2:{ unfold link_re in Er. rewrite (uid_simple_plain _ uid_simple) in Er. discriminate. }
  pose proof (link_shape _ _ (uid_simple_plain _ uid_simple) Er) as Sh.
  unfold acquire. unfold bind at 1. unfold bind at 1. unfold get. rewrite Hb. unfold ModelBase.put.
  destruct (cached_hit T 1266 [] r (set_borrowed true s) Hc Er) as (c' & E & Hc'). unfold bind at 1. rewrite E. exists c'. split; [exact Hc'|].
  set (s1 := set_cache c' (set_borrowed true s)). assert (ps_ref_index s1 = ps_ref_index s) as Ei by reflexivity.
  assert (replace_allM (rx_re r) (f_link W T) (a ++ flat_map marked3 (map triple_of l)) s1 = Ret (a ++ stage_text (ps_ref_index s) l) (stocks T (stage_kept (ps_ref_index s) l) s1)) as R.
  { rewrite Sh. apply yields_all. destruct Ha as [->|(p & d & -> & Hd)]; [rewrite <- Ei; cbn [app]; apply links_yield; auto|].
    apply yields_pass; [|rewrite <- Ei; apply links_yield; auto]. apply pass_pattern; [exact H91|].
    split; [apply needle_free; exact Hfree|]. right. right. exists p, d. split; [reflexivity|apply needle_without; exact Hd]. }
  assert (contains (needle (t_uid T)) (a ++ flat_map marked3 (map triple_of l)) = true) as Hin.
  { destruct l as [|q l]; [congruence|]. cbn [map flat_map]. unfold marked3 at 1. rewrite <- app_assoc. apply contains_mid. }
  destruct fuel as [|[|fuel]]; [lia|lia|]. cbn [link_loop]. rewrite Hin. unfold bind at 1. unfold bind at 1. rewrite R. rewrite Hnew.
  destruct (seqb _ _); unfold bind, release, modify, ret, s1; (do 2 f_equal); rewrite <- !stocks_borrowed; f_equal; destruct s; cbn in *; subst; reflexivity.
Qed.
End Stage.
