(** Lists in the text: recognition, lines and items. *)
From Coq Require Import ZArith.
From Verif Require Import Str Unicode Regex RegexParse RegexSnips RegexTheory RegexAuto RegexGroups Lib ModelBase ModelHtml ModelUrl
  ModelAttrs ModelInline ModelParser SpecRegex ProofRegex SpecHtml ProofHtml ProofCharref SpecParse ProofParse ProofState ProofLinks ProofSpan ProofDoc SpecPlain SpecNewlines ProofNewlines ProofParas ProofTags
  ProofWeave SpecLists ProofLists.
#[local] Arguments u : simpl never.

(** ** Recognition *)
Definition bullet_cls : cls := mk_cls false [CRange 42 42; CRange 59 59; CRange 58 58].
Definition marks_cls : cls := Eval vm_compute in match rx_re LIST_RE with RSeq _ (RSeq (RGroup _ (RSeq (RAlt _ (RSeq (RStar _ (RCls k)) _)) _)) _) => k | _ => mk_cls false [] end.
Definition num_re : re := Eval vm_compute in match rx_re LIST_RE with RSeq _ (RSeq (RGroup _ (RSeq (RAlt _ (RSeq _ (RSeq _ k))) _)) _) => k | _ => REps end.
Definition num_cls : cls := Eval vm_compute in match num_re with RAlt (RAlt _ (RSeq (RCls k) _)) _ => k | _ => mk_cls false [] end.
Definition cls_re : re := Eval vm_compute in match rx_re LIST_RE with RSeq _ (RSeq (RGroup _ (RSeq _ (RSeq c _))) _) => c | _ => REps end.
Definition gap_cls : cls := mk_cls false [CRange 32 32; CRange 46 46].
Definition mark_cls : cls := mk_cls false [CRange 35 35; CRange 42 42; CRange 59 59; CRange 58 58].
Lemma num_shape : num_re = RAlt (RAlt (RCls (one 95)) (RSeq (RCls num_cls) (RStar true (RCls num_cls)))) REps.
Proof. reflexivity. Qed.
Lemma list_shape : rx_re LIST_RE = RSeq (RAssert SOL) (RSeq (RGroup 1 (RSeq
   (RAlt (RSeq (RCls bullet_cls) (RStar true (RCls bullet_cls))) (RSeq (RStar true (RCls marks_cls)) (RSeq (RCls (one 35)) num_re)))
   (RSeq cls_re (RSeq (RCls gap_cls) (RStar true (RCls any_cls))))))
   (RSeq (RAssert EOL) (RNLook (RCls (mk_cls true (c_items mark_cls)))))).
Proof. reflexivity. Qed.
Lemma line_shape : rx_re LIST_LINE_PARSER = RSeq (RAssert SOT) (RSeq (RGroup 1 (RSeq (RCls mark_cls) (RStar true (RCls mark_cls))))
  (RSeq (RAlt (RGroup 2 (RAlt (RCls (one 95)) (RSeq (RCls num_cls) (RStar true (RCls num_cls))))) REps)
  (RSeq (RGroup 3 cls_re) (RSeq (RCls gap_cls) (RSeq (RGroup 4 (RStar true (RCls any_cls))) (RAssert EOT)))))).
Proof. reflexivity. Qed.
(** What may follow the marks of a line. *)
Inductive suffix : str -> Prop :=
| NoSuffix : suffix []
| Under : suffix [95]
| Digits c w : forallb (in_cls digit) (c :: w) = true -> suffix (c :: w).
Lemma digit_range x : in_cls digit x = true -> 48 <= x <= 57.
Proof.
  unfold digit, in_cls. cbn [c_neg c_items map]. change (u "0123456789") with [48; 49; 50; 51; 52; 53; 54; 55; 56; 57]. cbn [map existsb in_item]. rewrite xorb_false_l. intros H.
  repeat (apply orb_prop in H as [H|H]; [apply andb_prop in H as [H1 H2]; apply N.leb_le in H1, H2; lia|]). discriminate H.
Qed.
Lemma range_digit x : 48 <= x <= 57 -> In x [48; 49; 50; 51; 52; 53; 54; 55; 56; 57].
Proof. intros H. assert (x = 48 \/ x = 49 \/ x = 50 \/ x = 51 \/ x = 52 \/ x = 53 \/ x = 54 \/ x = 55 \/ x = 56 \/ x = 57) by lia. cbn. intuition lia. Qed.
Lemma digit_cases (f : N -> bool) : forallb f [48; 49; 50; 51; 52; 53; 54; 55; 56; 57] = true -> forall x, in_cls digit x = true -> f x = true.
Proof. intros H x Hx. rewrite forallb_forall in H. apply H, range_digit, digit_range, Hx. Qed.
Lemma digit_num x : in_cls digit x = true -> in_cls num_cls x = true.
Proof. apply (digit_cases (in_cls num_cls)). vm_compute. reflexivity. Qed.
Lemma digits_num w : forallb (in_cls digit) w = true -> forallb (in_cls num_cls) w = true.
Proof. rewrite !forallb_forall. intros H x Hx. apply digit_num, H, Hx. Qed.
Lemma stop_num : forall r, stops num_cls (32 :: r).
Proof. intros r. reflexivity. Qed.
Lemma skip_cls before rest cs k : m cls_re (mk_mst before (32 :: rest) cs) k = k (mk_mst before (32 :: rest) cs).
Proof. apply m_skip. vm_compute. reflexivity. Qed.
Lemma rev_app_cons (c : N) w b : rev w ++ c :: b = rev (c :: w) ++ b.
Proof. cbn [rev]. rewrite <- app_assoc. reflexivity. Qed.

Lemma num_takes sfx before rest cs k y : suffix sfx -> k (mk_mst (rev sfx ++ before) (32 :: rest) cs) = Some y ->
  m num_re (mk_mst before (sfx ++ 32 :: rest) cs) k = Some y.
Proof.
  intros Hs Hk. rewrite num_shape. destruct Hs as [| |c w Hw]; cbn [app].
  - rewrite m_skip by reflexivity. exact Hk.
  - apply m_alt_l, m_alt_l. rewrite m_cls, in_one, N.eqb_refl. exact Hk.
  - apply m_alt_l. rewrite m_alt_r.
    + cbn [forallb] in Hw. apply andb_prop in Hw as [H1 H2]. rewrite m_seq, m_cls, (digit_num c H1). apply m_star_greedy; [apply digits_num, H2|apply stop_num|].
      rewrite rev_app_cons. exact Hk.
    + cbn [forallb] in Hw. apply andb_prop in Hw as [H1 H2]. rewrite m_cls, in_one. apply digit_range in H1. destruct (N.eqb_spec c 95) as [->|]; [lia|reflexivity].
Qed.
Lemma suffix_head sfx rest : suffix sfx -> exists x r, sfx ++ 32 :: rest = x :: r /\ (x = 32 \/ x = 95 \/ in_cls digit x = true).
Proof.
  intros [| |c w Hw]; cbn [app]; [exists 32, rest; auto|exists 95, (32 :: rest); auto|]. exists c, (w ++ 32 :: rest). cbn [forallb] in Hw. apply andb_prop in Hw as [H1 _]. auto.
Qed.
Lemma list_whole k sfx t before : suffix sfx -> (k = Bullets -> sfx = []) -> (before = [] \/ exists b, before = 10 :: b) ->
  exists s, match_at (rx_re LIST_RE) before (mark_of k :: sfx ++ 32 :: t) = Some s /\ m_after s = [].
Proof.
  intros Hs Hk Hb. cut (exists b, match_at (rx_re LIST_RE) before (mark_of k :: sfx ++ 32 :: t) = Some (mk_mst b [] [(1%nat, (mark_of k :: sfx ++ 32 :: t, []))])); [intros (b & E); eauto|].
  unfold match_at. rewrite list_shape, m_seq, m_assert.
  assert (assert_holds SOL before (mark_of k :: sfx ++ 32 :: t) = true) as -> by (destruct Hb as [->|(b & ->)]; reflexivity).
  rewrite m_seq, m_group, m_seq.
  assert (F : forall b cs, m (RSeq cls_re (RSeq (RCls gap_cls) (RStar true (RCls any_cls)))) (mk_mst b (32 :: t) cs) (fun s' =>
      m (RSeq (RAssert EOL) (RNLook (RCls (mk_cls true (c_items mark_cls))))) (mk_mst (m_before s') (m_after s') ((1%nat, (mark_of k :: sfx ++ 32 :: t, m_after s')) :: m_caps s')) Some)
      = Some (mk_mst (rev t ++ 32 :: b) [] ((1%nat, (mark_of k :: sfx ++ 32 :: t, [])) :: cs))).
  { intros b cs. rewrite m_seq, skip_cls, m_seq, m_cls. change (in_cls gap_cls 32) with true. cbv iota. rewrite <- (app_nil_r t) at 1. apply m_star_greedy; [apply all_any|exact I|].
    cbn [m_before m_after m_caps]. rewrite m_seq, m_assert. cbn [assert_holds]. rewrite m_nlook, m_cls_nil. reflexivity. }
  destruct k as [|st]; cbn [mark_of] in *; eexists.
  - rewrite (Hk eq_refl) in *. apply m_alt_l. rewrite m_seq. cbn [app]. rewrite m_cls. change (in_cls bullet_cls 42) with true. cbv iota. 
    change (32 :: t) with ([] ++ 32 :: t). apply (m_star_greedy bullet_cls _ _ []); [reflexivity|reflexivity|]. cbn [rev app]. apply F.
  - rewrite m_alt_r.
    2:{ rewrite m_seq, m_cls. reflexivity. }
    rewrite m_seq. change (35 :: sfx ++ 32 :: t) with ([] ++ [35] ++ sfx ++ 32 :: t) at 1. apply m_star_back; [reflexivity| | |].
    + destruct (suffix_head sfx t Hs) as (x & r & -> & [->|[->|Hx]]); cbn [stops]; [reflexivity|reflexivity|].
      apply (digit_cases (fun x => negb (in_cls marks_cls x))) in Hx; [|vm_compute; reflexivity]. apply negb_true_iff in Hx. exact Hx.
    + cbn [rev app]. rewrite m_seq, m_cls. rewrite in_one, N.eqb_refl. apply num_takes; [exact Hs|]. apply F.
    + intros v1 v2 x E. assert (v2 = [] /\ v1 = [] /\ x = 35) as (-> & -> & ->).
      { destruct v1 as [|a v1]; [cbn in E; inversion E; auto|]. cbn in E. inversion E as [[E1 E2]]. destruct v1; discriminate. }
      cbn [rev app]. destruct (suffix_head sfx t Hs) as (y & r & -> & Hy). rewrite m_seq, m_cls, in_one.
      destruct (N.eqb_spec y 35) as [->|]; [|reflexivity]. exfalso. destruct Hy as [Hy|[Hy|Hy]]; try discriminate.
Qed.
Lemma segs_whole r x t s : match_at r [] (x :: t) = Some s -> m_after s = [] ->
  segs r (x :: t) = [Hit (mk_hit_of (x :: t) s)].
Proof.
  intros M E. unfold segs. rewrite <- (app_nil_r (x :: t)) at 1. rewrite (scan_take r [] (x :: t) [] s false); [|discriminate|rewrite app_nil_r; exact M|exact E].
  rewrite app_nil_r. rewrite scan_nil. reflexivity.
Qed.

(** ** Lines *)
Definition line_of (it : list_item) : str := li_tl it ++ li_st it ++ 32 :: li_content it.
Definition line_item (it : list_item) : Prop := path (li_tl it) /\ li_tl it <> [] /\ suffix (li_st it) /\ li_atts it = [] /\ ~ In 10 (li_content it).
Definition tail2 : str := [10; 10].
Fixpoint with_tail (l : list str) : list str := match l with [] => [] | [x] => [x ++ tail2] | x :: l' => x :: with_tail l' end.
Definition look_cls : cls := mk_cls false [CRange 42 42; CRange 35 35; CRange 59 59; CRange 58 58].
Lemma lsplit_shape : rx_re LIST_SPLITTER = RSeq (RCls (one 10)) (RLook (RCls look_cls)).
Proof. reflexivity. Qed.
Lemma lsplit_miss before c rest : c <> 10 -> match_at (rx_re LIST_SPLITTER) before (c :: rest) = None.
Proof. intros H. unfold match_at. rewrite lsplit_shape, m_seq, m_cls, in_one. apply N.eqb_neq in H. rewrite H. reflexivity. Qed.
Lemma lsplit_word w before rest last : ~ In 10 w -> w <> [] ->
  scan (rx_re LIST_SPLITTER) before (w ++ rest) O last = map Lit w ++ scan (rx_re LIST_SPLITTER) (rev w ++ before) rest O false.
Proof.
  intros H Hn. apply scan_pass; [exact Hn|]. intros a c b E. apply lsplit_miss. intros ->. apply H. rewrite E. apply in_or_app. right. left. reflexivity.
Qed.
Lemma suffix_no10 sfx : suffix sfx -> ~ In 10 sfx.
Proof.
  intros [| |c w Hw] F; [destruct F|cbn in F; intuition discriminate|]. rewrite forallb_forall in Hw. apply Hw, digit_range in F. lia.
Qed.
Lemma path_no10 p : path p -> ~ In 10 p.
Proof. unfold path. rewrite Forall_forall. intros H F. apply H in F. intuition discriminate. Qed.
Lemma line_no10 it : line_item it -> ~ In 10 (line_of it).
Proof.
  intros (H1 & H2 & H3 & H4 & H5) F. unfold line_of in F. apply in_app_or in F as [F|F]; [exact (path_no10 _ H1 F)|].
  apply in_app_or in F as [F|[F|F]]; [exact (suffix_no10 _ H3 F)|discriminate|exact (H5 F)].
Qed.
Lemma line_head it : line_item it -> exists x r, line_of it = x :: r /\ in_cls look_cls x = true.
Proof.
  intros (H1 & H2 & _). unfold line_of. destruct (li_tl it) as [|x p]; [congruence|]. exists x, (p ++ li_st it ++ 32 :: li_content it). split; [reflexivity|].
  unfold path in H1. inversion H1 as [|? ? Hx _]; subst. destruct Hx as [->| ->]; reflexivity.
Qed.
Lemma lsplit_lines l : forall it before last acc, Forall line_item (it :: l) ->
  split_go 1 (scan (rx_re LIST_SPLITTER) before (join [10] (map line_of (it :: l)) ++ tail2) O last) acc =
  match with_tail (map line_of (it :: l)) with [] => None | x :: xs => Some ((rev acc ++ x) :: xs) end.
Proof.
  induction l as [|i l IH]; intros it before last acc H; inversion H as [|? ? Hi Hl]; subst.
  - cbn [map join with_tail]. pose proof (line_head it Hi) as (x & r & Ex & _).
    rewrite lsplit_word by (try apply line_no10; auto; rewrite Ex; discriminate). rewrite split_go_lits. unfold tail2. rewrite scan_cons.
    assert (match_at (rx_re LIST_SPLITTER) (rev (line_of it) ++ before) [10; 10] = None) as -> by reflexivity. rewrite scan_cons.
    assert (match_at (rx_re LIST_SPLITTER) (10 :: rev (line_of it) ++ before) [10] = None) as -> by reflexivity. rewrite scan_nil.
    assert (match_at (rx_re LIST_SPLITTER) (10 :: 10 :: rev (line_of it) ++ before) [] = None) as -> by reflexivity.
    cbn [split_go]. cbn [rev]. rewrite rev_app_distr, rev_involutive. rewrite <- !app_assoc. reflexivity.
  - change (join [10] (map line_of (it :: i :: l))) with (line_of it ++ [10] ++ join [10] (map line_of (i :: l))). pose proof (line_head it Hi) as (x & r & Ex & _).
    rewrite <- app_assoc. rewrite lsplit_word by (try apply line_no10; auto; rewrite Ex; discriminate). rewrite split_go_lits.
    inversion Hl as [|? ? Hi2 _]; subst. destruct (line_head i Hi2) as (x2 & r2 & Ex2 & Hx2).
    assert (exists z, join [10] (map line_of (i :: l)) ++ tail2 = x2 :: z) as (z & Ez).
    { cbn [map]. rewrite Ex2. destruct (map line_of l); eexists; reflexivity. }
    rewrite <- app_assoc. cbn [app]. rewrite scan_cons. 
    assert (match_at (rx_re LIST_SPLITTER) (rev (line_of it) ++ before) (10 :: join [10] (map line_of (i :: l)) ++ tail2) =
      Some (mk_mst (10 :: rev (line_of it) ++ before) (join [10] (map line_of (i :: l)) ++ tail2) [])) as ->.
    { rewrite Ez. unfold match_at. rewrite lsplit_shape, m_seq, m_cls, in_one, N.eqb_refl, m_look, m_cls, Hx2. reflexivity. }
    assert (h_text (mk_hit_of (10 :: join [10] (map line_of (i :: l)) ++ tail2) (mk_mst (10 :: rev (line_of it) ++ before) (join [10] (map line_of (i :: l)) ++ tail2) [])) = [10]) as ->.
    { unfold mk_hit_of. cbn [h_text m_after]. apply (cap_str_app [10]). }
    specialize (IH i (rev [10] ++ rev (line_of it) ++ before) true [] Hl).
    set (J := join [10] (map line_of (i :: l)) ++ tail2) in *. cbn [List.length m_after m_before skipn]. cbn [split_go]. cbn [seq map forallb Nat.sub app].
    rewrite IH. cbn [map with_tail]. destruct (map line_of l); cbn [with_tail]; rewrite rev_app_distr, rev_involutive; reflexivity.
Qed.
Lemma line_captures it c : line_item it ->
  captures (rx_re LIST_LINE_PARSER) (li_tl it ++ li_st it ++ 32 :: c) =
  Some (mk_hit (li_tl it ++ li_st it ++ 32 :: c)
    ((4%nat, (c, [])) :: (3%nat, (32 :: c, 32 :: c)) ::
     (match li_st it with [] => [] | _ => [(2%nat, (li_st it ++ 32 :: c, 32 :: c))] end) ++ [(1%nat, (li_tl it ++ li_st it ++ 32 :: c, li_st it ++ 32 :: c))])).
Proof.
  intros (H1 & H2 & H3 & _). unfold captures, find_first.
  destruct (li_tl it) as [|x p]; [congruence|]. cbn [app find_from].
  assert (F : forallb (in_cls mark_cls) (x :: p) = true).
  { apply forallb_forall. intros y I. unfold path in H1. rewrite Forall_forall in H1. apply H1 in I as [->| ->]; reflexivity. }
  cbn [forallb] in F. apply andb_prop in F as [F1 F2]. set (sfx := li_st it) in *. clearbody sfx.
  assert (E : exists b, match_at (rx_re LIST_LINE_PARSER) [] (x :: p ++ sfx ++ 32 :: c) = Some (mk_mst b [] 
    ((4%nat, (c, [])) :: (3%nat, (32 :: c, 32 :: c)) :: (match sfx with [] => [] | _ => [(2%nat, (sfx ++ 32 :: c, 32 :: c))] end) ++ [(1%nat, (x :: p ++ sfx ++ 32 :: c, sfx ++ 32 :: c))]))).
  { assert (G : forall b cs, m (RSeq (RGroup 3 cls_re) (RSeq (RCls gap_cls) (RSeq (RGroup 4 (RStar true (RCls any_cls))) (RAssert EOT)))) (mk_mst b (32 :: c) cs) Some =
      Some (mk_mst (rev c ++ 32 :: b) [] ((4%nat, (c, [])) :: (3%nat, (32 :: c, 32 :: c)) :: cs))).
    { intros b cs. rewrite m_seq, m_group, skip_cls. cbn [m_before m_after m_caps]. rewrite m_seq, m_cls. change (in_cls gap_cls 32) with true. cbv iota. rewrite m_seq, m_group.
      rewrite <- (app_nil_r c) at 1. apply m_star_greedy; [apply all_any|exact I|]. cbn [m_before m_after m_caps]. reflexivity. }
    unfold match_at. rewrite line_shape, m_seq, m_assert. cbn [assert_holds is_empty]. rewrite m_seq, m_group, m_seq, m_cls, F1.
    assert (St : stops mark_cls (sfx ++ 32 :: c)).
    { destruct (suffix_head sfx c H3) as (y & r & -> & [->|[->|Hy]]); cbn [stops]; [reflexivity|reflexivity|].
      apply (digit_cases (fun x => negb (in_cls mark_cls x))) in Hy; [|vm_compute; reflexivity]. apply negb_true_iff in Hy. exact Hy. }
    destruct H3 as [| |d w Hw]; eexists; (apply m_star_greedy; [exact F2|exact St|]); cbn [m_before m_after m_caps app]; rewrite m_seq.
    - rewrite m_alt_r by (apply m_dead; reflexivity). cbn [m]. apply G.
    - apply m_alt_l. rewrite m_group. apply m_alt_l. rewrite m_cls, in_one, N.eqb_refl. cbn [m_before m_after m_caps]. apply G.
    - apply m_alt_l. rewrite m_group. cbn [forallb] in Hw. apply andb_prop in Hw as [W1 W2]. rewrite m_alt_r.
      + rewrite m_seq, m_cls, (digit_num d W1). apply m_star_greedy; [apply digits_num, W2|apply stop_num|]. cbn [m_before m_after m_caps]. apply G.
      + rewrite m_cls, in_one. apply digit_range in W1. destruct (N.eqb_spec d 95) as [->|]; [lia|reflexivity]. }
  destruct E as (b & ->). cbn [option_map fst snd]. unfold mk_hit_of. cbn [m_after m_caps]. f_equal. f_equal.
  unfold cap_str. cbn [fst snd List.length]. rewrite Nat.sub_0_r. change (S (List.length (p ++ sfx ++ 32 :: c))) with (List.length (x :: p ++ sfx ++ 32 :: c)). rewrite firstn_all. reflexivity.
Qed.
Lemma cap_all (w : str) : cap_str (w, []) = w.
Proof. rewrite <- (app_nil_r w) at 1. apply cap_str_app. Qed.
Lemma cap_none (w : str) : cap_str (w, w) = [].
Proof. apply (cap_str_app [] w). Qed.
Lemma line_read it c items : line_item it -> read_item items (li_tl it ++ li_st it ++ 32 :: c) = mk_li [] c (li_tl it) (li_st it) :: items.
Proof.
  intros H. unfold read_item. rewrite line_captures by exact H. unfold cap_or, cap_opt, cap_text. cbn [h_caps].
  destruct H as (H1 & H2 & H3 & _). destruct (li_st it) as [|d w] eqn:E; cbn [app find_cap Nat.eqb option_map]; rewrite cap_all, cap_none; f_equal.
  - rewrite (cap_str_app (li_tl it) (32 :: c)). reflexivity.
  - change (d :: w ++ 32 :: c) with ((d :: w) ++ 32 :: c). rewrite (cap_str_app (li_tl it) ((d :: w) ++ 32 :: c)), (cap_str_app (d :: w) (32 :: c)). reflexivity.
Qed.
(** The last item has the newlines after the list. *)
Fixpoint last_tailed (l : list list_item) : list list_item :=
  match l with
  | [] => []
  | [i] => [mk_li (li_atts i) (li_content i ++ tail2) (li_tl i) (li_st i)]
  | i :: l' => i :: last_tailed l'
  end.
Lemma read_all l : Forall line_item l -> read_items (with_tail (map line_of l)) = last_tailed l.
Proof.
  intros H. unfold read_items. assert (G : forall acc, rev (fold_left read_item (with_tail (map line_of l)) acc) = rev acc ++ last_tailed l); [|rewrite G; reflexivity].
  induction l as [|i l IH]; intros acc; [cbn; rewrite app_nil_r; reflexivity|]. inversion H as [|? ? Hi Hl]; subst. specialize (IH Hl).
  assert (A : li_atts i = []) by apply Hi. destruct l as [|j l].
  - cbn [map with_tail fold_left last_tailed]. unfold line_of. rewrite <- !app_assoc. rewrite <- app_comm_cons. rewrite line_read by exact Hi. rewrite A. reflexivity.
  - change (with_tail (map line_of (i :: j :: l))) with (line_of i :: with_tail (map line_of (j :: l))).
    change (last_tailed (i :: j :: l)) with (i :: last_tailed (j :: l)). cbn [fold_left]. rewrite IH. unfold line_of at 1. rewrite line_read by exact Hi. cbn [rev].
    rewrite <- app_assoc. cbn [app]. f_equal. f_equal. destruct i. cbn in *. subst. reflexivity.
Qed.
Definition same (a b : list_item) : Prop := li_tl a = li_tl b /\ li_st a = li_st b /\ li_atts a = li_atts b /\ trim (li_content a) = trim (li_content b).
Definition same_opt (a b : option list_item) : Prop :=
  match a, b with Some a, Some b => same a b | None, None => True | _, _ => False end.
Lemma list_line_same T prev prev' next lists a b s : same_opt prev prev' -> same a b -> list_line T prev next lists a s = list_line T prev' next lists b s.
Proof.
  intros Hp (H1 & H2 & H3 & H4). unfold list_line, li_level. rewrite H1, H2, H3, H4. destruct prev as [p|], prev' as [q|]; cbn [same_opt] in Hp; try contradiction; [|reflexivity].
  destruct Hp as (P1 & _). rewrite P1. reflexivity.
Qed.
Lemma list_lines_same T l l' : Forall2 same l l' -> forall prev prev' lists s, same_opt prev prev' -> list_lines T prev lists l s = list_lines T prev' lists l' s.
Proof.
  induction 1 as [|a b l l' Ha Hl IH]; intros prev prev' lists s Hp; [reflexivity|]. cbn [list_lines].
  assert (option_map li_level (hd_error l) = option_map li_level (hd_error l')) as ->.
  { destruct Hl as [|c d l l' Hc _]; [reflexivity|]. cbn [hd_error option_map]. unfold li_level. destruct Hc as (-> & _). reflexivity. }
  unfold bind. rewrite (list_line_same T prev prev' _ lists a b s Hp Ha). destruct (list_line _ _ _ _ b s) as [r s1|p|]; [|reflexivity|reflexivity]. rewrite (IH (Some a) (Some b)); [reflexivity|exact Ha].
Qed.
Lemma trim_start_app p a w : forallb p w = true -> trim_start_by p (a ++ w) = match trim_start_by p a with [] => [] | c => c ++ w end.
Proof.
  intros H. induction a as [|c a IH]; cbn [app trim_start_by].
  - destruct w as [|x w]; [reflexivity|]. apply trim_start_by_nil. exact H.
  - destruct (p c); [exact IH|reflexivity].
Qed.
Lemma trim_start_all p w b : forallb p w = true -> trim_start_by p (w ++ b) = trim_start_by p b.
Proof. intros H. induction w as [|c w IH]; [reflexivity|]. cbn [forallb app trim_start_by] in *. apply andb_prop in H as [-> H]. apply IH, H. Qed.
Lemma trim_end_app p a w : forallb p w = true -> trim_end_by p (a ++ w) = trim_end_by p a.
Proof.
  intros H. unfold trim_end_by. rewrite rev_app_distr, trim_start_all; [reflexivity|]. rewrite forallb_forall in *. intros x Hx. apply H, in_rev, Hx.
Qed.
Lemma trim_by_app p a w : forallb p w = true -> trim_by p (a ++ w) = trim_by p a.
Proof.
  intros H. unfold trim_by. rewrite trim_start_app by exact H. destruct (trim_start_by p a) as [|c r]; [reflexivity|]. apply trim_end_app, H.
Qed.
Lemma last_same l : Forall2 same (last_tailed l) l.
Proof.
  assert (R : forall a, same a a) by (intros a; repeat split; reflexivity).
  induction l as [|i l IH]; [constructor|]. destruct l as [|j l]; cbn [last_tailed] in *; constructor; auto.
  repeat split. cbn [li_content]. unfold trim. apply trim_by_app. reflexivity.
Qed.

(** ** Newlines in an element *)
(** Lower case does not change the number of bytes. *)
Definition stable (c : N) : Prop := exists d, lower_char c = [d] /\ utf8_len d = utf8_len c /\ (d = 10 -> c = 10).
Definition low (c : N) : N := hd 0 (lower_char c).
Lemma stable_low c : stable c -> lower_char c = [low c] /\ utf8_len (low c) = utf8_len c /\ (low c = 10 -> c = 10).
Proof. intros (d & H1 & H2 & H3). unfold low. rewrite H1. cbn [hd]. auto. Qed.
Lemma lower_stable t : (forall c, In c t -> stable c) -> to_lowercase t = map low t.
Proof.
  unfold to_lowercase. induction t as [|c t IH]; intros H; [reflexivity|]. cbn [flat_map map]. rewrite (proj1 (stable_low c (H c (or_introl eq_refl)))), IH; [reflexivity|].
  intros x Hx. apply H. right. exact Hx.
Qed.
Lemma blen_low t : (forall c, In c t -> stable c) -> blen (map low t) = blen t.
Proof.
  induction t as [|c t IH]; intros H; [reflexivity|]. cbn [map]. unfold blen in *. cbn [map fold_right] in *. rewrite IH by (intros x Hx; apply H; right; exact Hx).
  rewrite (proj1 (proj2 (stable_low c (H c (or_introl eq_refl))))). reflexivity.
Qed.
Lemma utf8_pos c : (1 <= utf8_len c)%nat.
Proof. unfold utf8_len. repeat destruct (_ <? _); lia. Qed.
Lemma blen_app a b : blen (a ++ b) = (blen a + blen b)%nat.
Proof. induction a as [|c a IH]; [reflexivity|]. cbn [app blen]. lia. Qed.
Lemma bdrop_app a b : bdrop (blen a) (a ++ b) = Some b.
Proof.
  induction a as [|c a IH]; [destruct b; reflexivity|]. cbn [app blen]. pose proof (utf8_pos c). destruct (utf8_len c + blen a)%nat as [|n] eqn:E; [lia|]. cbn [bdrop]. rewrite <- E.
  assert (Nat.leb (utf8_len c) (utf8_len c + blen a) = true) as -> by (apply Nat.leb_le; lia). replace (utf8_len c + blen a - utf8_len c)%nat with (blen a) by lia. exact IH.
Qed.
Lemma btake_app a b : btake (blen a) (a ++ b) = Some a.
Proof.
  induction a as [|c a IH]; [destruct b; reflexivity|]. cbn [app blen]. pose proof (utf8_pos c). destruct (utf8_len c + blen a)%nat as [|n] eqn:E; [lia|]. cbn [btake]. rewrite <- E.
  assert (Nat.leb (utf8_len c) (utf8_len c + blen a) = true) as -> by (apply Nat.leb_le; lia). replace (utf8_len c + blen a - utf8_len c)%nat with (blen a) by lia. rewrite IH. reflexivity.
Qed.
Lemma bslice_app a x b : bslice (blen a) (blen a + blen x) (a ++ x ++ b) = Some x.
Proof.
  unfold bslice. assert (Nat.leb (blen a) (blen a + blen x) = true) as -> by (apply Nat.leb_le; lia). rewrite bdrop_app. replace (blen a + blen x - blen a)%nat with (blen x) by lia. apply btake_app.
Qed.
Lemma bfind_none t : ~ In 10 t -> bfind_nl t = None.
Proof.
  induction t as [|c t IH]; intros H; [reflexivity|]. cbn [bfind_nl]. destruct (N.eqb_spec c 10) as [->|]; [destruct H; left; reflexivity|]. rewrite IH; [reflexivity|].
  intros F. apply H. right. exact F.
Qed.
Lemma bfind_some x t : ~ In 10 x -> bfind_nl (x ++ 10 :: t) = Some (blen x).
Proof.
  induction x as [|c x IH]; intros H; [reflexivity|]. cbn [app bfind_nl blen]. destruct (N.eqb_spec c 10) as [->|]; [destruct H; left; reflexivity|]. rewrite IH; [reflexivity|].
  intros F. apply H. right. exact F.
Qed.
Lemma first_newline (t : str) : ~ In 10 t \/ exists x b, t = x ++ 10 :: b /\ ~ In 10 x.
Proof.
  induction t as [|c t IH]; [left; intros []|]. destruct (N.eqb_spec c 10) as [->|Hc]; [right; exists [], t; split; [reflexivity|intros []]|].
  destruct IH as [H|(x & b & -> & H)]; [left|right; exists (c :: x), b; split; [reflexivity|]]; intros [F|F]; auto.
Qed.
Section Brs.
Variables (t br : str).
Hypothesis St : forall c, In c t -> stable c.
Hypothesis Tab : forall a b, t = a ++ 10 :: b -> exists b', b = 9 :: b'.
Lemma low_no10 x : (forall c, In c x -> stable c) -> ~ In 10 x -> ~ In 10 (map low x).
Proof. intros Hs H F. apply in_map_iff in F as (c & E & F). apply H. rewrite <- (proj2 (proj2 (stable_low c (Hs c F))) E). exact F. Qed.
Lemma brs_keep : forall n a b, t = a ++ b -> (List.length b < n)%nat ->
  exists a' b', t = a' ++ b' /\ forall s, brs_loop n t (map low t) br (blen a) a s = Ret (a', blen a') s.
Proof.
  induction n as [|n IH]; intros a b E Hn; [lia|].
  assert (Sa : forall c, In c a -> stable c) by (intros c Hc; apply St; rewrite E; apply in_or_app; auto).
  assert (Sb : forall c, In c b -> stable c) by (intros c Hc; apply St; rewrite E; apply in_or_app; auto).
  assert (D : bdrop (blen a) (map low t) = Some (map low b)) by (rewrite E, map_app, <- (blen_low a Sa); apply bdrop_app).
  destruct (first_newline b) as [H|(x & b2 & -> & H)].
  - exists a, b. split; [exact E|]. intros s. cbn [brs_loop]. unfold bind, of_opt. rewrite D. unfold ret. rewrite bfind_none by (apply low_no10; auto). reflexivity.
  - assert (Sx : forall c, In c x -> stable c) by (intros c Hc; apply Sb, in_or_app; auto).
    destruct (IH (a ++ x ++ [10]) b2) as (a' & b' & E' & G).
    { rewrite E, <- !app_assoc. reflexivity. }
    { rewrite app_length in Hn. cbn in Hn. lia. }
    exists a', b'. split; [exact E'|]. intros s. cbn [brs_loop]. unfold bind at 1. rewrite D. unfold of_opt at 1, ret at 1. 
    assert (M : map low (x ++ 10 :: b2) = map low x ++ 10 :: map low b2) by (rewrite map_app; reflexivity). rewrite M, bfind_some by (apply low_no10; auto).
    rewrite (blen_low x Sx). unfold bind at 1. rewrite E at 1. rewrite bslice_app. unfold of_opt at 1, ret at 1.
    assert (P : S (blen a + blen x) = blen (a ++ x ++ [10])) by (rewrite !blen_app; change (blen [10]) with 1%nat; lia). rewrite P.
    assert (D2 : bdrop (blen (a ++ x ++ [10])) (map low t) = Some (map low b2)).
    { rewrite <- (blen_low (a ++ x ++ [10])). 2:{ intros c Hc. apply St. rewrite E. apply in_app_or in Hc as [Hc|Hc]; apply in_or_app; auto. right. apply in_app_or in Hc as [Hc|[<-|[]]]; apply in_or_app; cbn; auto. }
      rewrite E. replace (a ++ x ++ 10 :: b2) with ((a ++ x ++ [10]) ++ b2) by (rewrite <- !app_assoc; reflexivity). rewrite (map_app low (a ++ x ++ [10]) b2). apply bdrop_app. }
    unfold bind at 1. rewrite D2. unfold of_opt at 1, ret at 1. destruct (Tab (a ++ x) b2) as (b3 & ->); [rewrite E, <- app_assoc; reflexivity|].
    assert (bad_next (map low (9 :: b3)) = true) as -> by reflexivity. unfold bind at 1, ret at 1. cbn [app]. apply G.
Qed.
Lemma brs_tabbed s : insert_brs t br s = Ret t s.
Proof.
  unfold insert_brs. destruct (Nat.eqb _ _); [reflexivity|]. rewrite (lower_stable t St). rewrite map_length.
  destruct (brs_keep (S (List.length t)) [] t eq_refl ltac:(lia)) as (a & b & E & G). change O with (blen []). unfold bind. rewrite G. cbn [fst snd].
  destruct a as [|c a]; [reflexivity|]. cbn [is_empty]. rewrite E, bdrop_app. cbn [of_opt]. unfold ret. reflexivity.
Qed.
End Brs.

(** ** Line breaks in the items *)
Definition li_re : rx := Eval vm_compute in match tag_br_re (u "li") with Some r => r | None => mk_rx REps 0 [] end.
Lemma li_shape : rx_re li_re = RSeq (RCls (one 60)) (RSeq (RCls (one 108)) (RSeq (RCls (one 105)) (RSeq (RGroup 1 (RStar false (RCls (mk_cls true [CRange 62 62]))))
  (RSeq (RCls (one 62)) (RSeq (RGroup 2 (RStar true (RCls any_cls))) (RSeq (RCls (one 60)) (RSeq (RCls (one 47)) (RSeq (RCls (one 108)) (RSeq (RCls (one 105)) (RCls (one 62))))))))))).
Proof. reflexivity. Qed.
Definition close_li : re := RSeq (RCls (one 60)) (RSeq (RCls (one 47)) (RSeq (RCls (one 108)) (RSeq (RCls (one 105)) (RCls (one 62))))).
Definition open_li : re := RSeq (RCls (one 60)) (RSeq (RCls (one 108)) (RCls (one 105))).
Lemma li_expected uid : expected uid 1060 (u "li") = Some li_re.
Proof. reflexivity. Qed.
Lemma li_tag : tag_br_re (u "li") = Some li_re.
Proof. reflexivity. Qed.
Lemma li_miss before c rest : c <> 60 \/ (exists x r, rest = x :: r /\ x <> 108) -> match_at (rx_re li_re) before (c :: rest) = None.
Proof.
  intros H. unfold match_at. rewrite li_shape, m_seq, m_cls, in_one. destruct H as [H|(x & r & -> & H)].
  - apply N.eqb_neq in H. rewrite H. reflexivity.
  - destruct (c =? 60); [|reflexivity]. rewrite m_seq, m_cls, in_one. apply N.eqb_neq in H. rewrite H. reflexivity.
Qed.
Definition no_li (w : str) : Prop := forall a b, w = a ++ 60 :: b -> exists x b', b = x :: b' /\ x <> 108.
Definition no_close (w : str) : Prop := forall a b, w = a ++ 60 :: b -> exists x b', b = 47 :: x :: b' /\ x <> 108.
Lemma li_pass w before rest last : no_li w -> w <> [] ->
  scan (rx_re li_re) before (w ++ rest) O last = map Lit w ++ scan (rx_re li_re) (rev w ++ before) rest O false.
Proof.
  intros H Hn. apply scan_pass; [exact Hn|]. intros a c b E. apply li_miss. destruct (N.eqb_spec c 60) as [->|]; [right|auto].
  destruct (H a b E) as (x & r & -> & Hx). exists x, (r ++ rest). auto.
Qed.
Lemma li_hit before c post : no_close post -> exists b, match_at (rx_re li_re) before (60 :: 108 :: 105 :: 62 :: c ++ 60 :: 47 :: 108 :: 105 :: 62 :: post) =
  Some (mk_mst b post [(2%nat, (c ++ 60 :: 47 :: 108 :: 105 :: 62 :: post, 60 :: 47 :: 108 :: 105 :: 62 :: post));
     (1%nat, (62 :: c ++ 60 :: 47 :: 108 :: 105 :: 62 :: post, 62 :: c ++ 60 :: 47 :: 108 :: 105 :: 62 :: post))]).
Proof.
  intros H. eexists. unfold match_at. rewrite li_shape. do 3 (rewrite m_seq, m_cls, in_one, N.eqb_refl). rewrite m_seq, m_group.
  apply (m_star_lazy (mk_cls true [CRange 62 62]) _ _ []); [reflexivity|intros w1 x w2 E; destruct w1; discriminate|].
  cbn [m_before m_after m_caps rev app]. rewrite m_seq, m_cls, in_one, N.eqb_refl, m_seq, m_group.
  change (c ++ 60 :: 47 :: 108 :: 105 :: 62 :: post) with (c ++ (60 :: 47 :: 108 :: 105 :: 62 :: post)) at 1. rewrite <- (app_nil_r (60 :: 47 :: 108 :: 105 :: 62 :: post)) at 1. apply m_star_back.
  - apply all_any.
  - exact I.
  - cbn [m_before m_after m_caps]. rewrite app_nil_r. do 4 (rewrite m_seq, m_cls, in_one, N.eqb_refl). rewrite m_cls, in_one, N.eqb_refl. reflexivity.
  - intros v1 v2 x E. rewrite app_nil_r. cbn [m_before m_after m_caps].
    assert (G : forall y r, v2 = 60 :: y :: r -> y = 47 -> exists z r', r = z :: r' /\ z <> 108).
    { intros y r -> ->. destruct v1 as [|a1 v1]; cbn [app] in E; inversion E as [[E1 E2]]; subst.
      destruct v1 as [|a2 v1]; cbn [app] in E2; inversion E2 as [[E3 E4]]; subst.
      destruct v1 as [|a3 v1]; cbn [app] in E4; inversion E4 as [[E5 E6]]; subst.
      destruct v1 as [|a4 v1]; cbn [app] in E6; inversion E6 as [[E7 E8]]; subst.
      destruct v1 as [|a5 v1]; cbn [app] in E8; inversion E8 as [[E9 E10]]; subst.
      - destruct (H [] (47 :: r) eq_refl) as (z & r' & E0 & Hz). inversion E0. eauto.
      - destruct (H (v1 ++ [x]) (47 :: r)) as (z & r' & E0 & Hz); [reflexivity|]. inversion E0. eauto. }
    rewrite m_seq. destruct v2 as [|y r]; [rewrite m_cls_nil; reflexivity|]. rewrite m_cls, in_one. destruct (N.eqb_spec y 60) as [->|]; [|reflexivity].
    rewrite m_seq. destruct r as [|y r]; [rewrite m_cls_nil; reflexivity|]. rewrite m_cls, in_one. destruct (N.eqb_spec y 47) as [->|]; [|reflexivity].
    destruct (G _ _ eq_refl eq_refl) as (z & r' & -> & Hz). rewrite m_seq, m_cls, in_one. apply N.eqb_neq in Hz. rewrite Hz. reflexivity.
Qed.
Definition in_items (c : str) : str := 60 :: 108 :: 105 :: 62 :: c ++ [60; 47; 108; 105; 62].
Lemma tag_br_items T pre c post : no_li pre -> no_close post -> (forall x, In x c -> stable x) -> (forall a b, c = a ++ 10 :: b -> exists b', b = 9 :: b') -> forall s,
  replace_allM (rx_re li_re) (f_tag_br T (u "li")) (pre ++ in_items c ++ post) s = Ret (pre ++ in_items c ++ post) s.
Proof.
  intros H1 H2 H3 H4 s. unfold replace_allM.
  assert (E : exists h, segs (rx_re li_re) (pre ++ in_items c ++ post) = map Lit pre ++ Hit h :: map Lit post /\
     cap_text 1 (h_caps h) = Some [] /\ cap_text 2 (h_caps h) = Some c).
  { destruct (li_hit (rev pre) c post H2) as (b & M).
    assert (E : 60 :: 108 :: 105 :: 62 :: c ++ 60 :: 47 :: 108 :: 105 :: 62 :: post = in_items c ++ post) by (unfold in_items; cbn [app]; rewrite <- app_assoc; reflexivity).
    rewrite E in M. match type of M with _ = Some ?x => set (st := x) in * end. exists (mk_hit_of (in_items c ++ post) st). split; [|split].
    - unfold segs. assert (P : forall last, scan (rx_re li_re) (rev pre) (in_items c ++ post) O last = Hit (mk_hit_of (in_items c ++ post) st) :: map Lit post).
      { intros last. rewrite (scan_take _ (rev pre) (in_items c) post st last (ltac:(discriminate)) M eq_refl). f_equal.
        destruct post as [|p post']; [rewrite scan_nil; reflexivity|]. rewrite <- (app_nil_r (p :: post')) at 1. rewrite li_pass; [rewrite scan_nil; rewrite <- (app_nil_r (map Lit (p :: post'))) at 2; f_equal| |discriminate].
        intros a b0 Eb. destruct (H2 a b0 Eb) as (x & r & -> & _). exists 47, (x :: r). split; [reflexivity|discriminate]. }
      destruct pre as [|p pre']; [cbn [app map]; apply P|]. rewrite li_pass by (auto; discriminate). rewrite app_nil_r. rewrite P. reflexivity.
    - unfold mk_hit_of, cap_text, st. cbn [h_caps m_caps find_cap Nat.eqb option_map]. f_equal. apply cap_none.
    - unfold mk_hit_of, cap_text, st. cbn [h_caps m_caps find_cap Nat.eqb option_map]. f_equal. apply cap_str_app. }
  destruct E as (h & -> & C1 & C2).
  assert (F : forall s, f_tag_br T (u "li") h s = Ret (in_items c) s).
  { intros s1. unfold f_tag_br, capx, cap_opt. rewrite C1, C2. cbn [of_opt]. unfold bind, ret. rewrite (brs_tabbed c (br_tag T) H3 H4). reflexivity. }
  unfold bind. rewrite mapM_app. unfold bind. rewrite mapM_lits. cbn [mapM]. unfold bind. cbn [replace_segM]. rewrite F, mapM_lits. unfold ret.
  rewrite concat_app. cbn [List.concat]. rewrite !concat_singles. reflexivity.
Qed.
