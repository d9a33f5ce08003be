(** The table phase. *)
From Coq Require Import ZArith.
From Verif Require Import Str Unicode Regex RegexParse RegexSnips RegexTheory RegexAuto RegexGroups Lib ModelBase ModelHtml ModelUrl
  ModelAttrs ModelInline ModelParser SpecRegex ProofRegex SpecHtml ProofHtml ProofCharref SpecParse ProofParse Logic ProofWalk ProofState SpecState ProofMemory ProofCache ProofLinks ProofSpan ProofDoc
  SpecPlain ProofPlain SpecNewlines ProofNewlines ProofParas ProofTags ProofSections ProofBlocks ProofStateEx SpecDoc ProofDocument SpecText ProofText ProofPieces ProofWeave SpecLists ProofLists ProofListText ProofListDoc SpecTables ProofTables.
From Verif Require SpecAtts ProofSpanRe ProofItems ProofItemsTop ProofLinked.
#[local] Arguments u : simpl never.

(** ** Cells *)
Definition th_re : rx := Eval vm_compute in match tag_br_re (u "th") with Some r => r | None => mk_rx REps 0 [] end.
Definition td_re : rx := Eval vm_compute in match tag_br_re (u "td") with Some r => r | None => mk_rx REps 0 [] end.
Definition cell_re (y : N) : re := RSeq (RCls (one 60)) (RSeq (RCls (one 116)) (RSeq (RCls (one y)) (RSeq (RGroup 1 (RStar false (RCls (mk_cls true [CRange 62 62]))))
  (RSeq (RCls (one 62)) (RSeq (RGroup 2 (RStar true (RCls any_cls))) (RSeq (RCls (one 60)) (RSeq (RCls (one 47)) (RSeq (RCls (one 116)) (RSeq (RCls (one y)) (RCls (one 62))))))))))).
Lemma td_shape : rx_re td_re = cell_re 100.
Proof. reflexivity. Qed.
Lemma th_shape : rx_re th_re = cell_re 104.
Proof. reflexivity. Qed.
Definition in_cell (y : N) (a c : str) : str := 60 :: 116 :: y :: a ++ 62 :: c ++ [60; 47; 116; y; 62].
Lemma cell_hit y before a c : y <> 60 -> ~ In 62 a -> exists b, match_at (cell_re y) before (in_cell y a c) =
  Some (mk_mst b [] [(2%nat, (c ++ [60; 47; 116; y; 62], [60; 47; 116; y; 62])); (1%nat, (a ++ 62 :: c ++ [60; 47; 116; y; 62], 62 :: c ++ [60; 47; 116; y; 62]))]).
Proof.
  intros Hy Ha. eexists. unfold match_at, cell_re, in_cell. do 3 (rewrite m_seq, m_cls, in_one, N.eqb_refl). rewrite m_seq, m_group.
  assert (N62 : forall x, In x a -> (x =? 62) = false) by (intros x Hx; apply N.eqb_neq; intros ->; exact (Ha Hx)).
  apply (m_star_lazy (mk_cls true [CRange 62 62]) _ _ a).
  { apply forallb_forall. intros x Hx. unfold in_cls. cbn [c_neg c_items existsb in_item]. rewrite ProofSpanRe.range_one, (N62 x Hx). reflexivity. }
  { intros w1 x w2 E. cbn [m_before m_after m_caps]. rewrite m_seq, m_cls, in_one, (N62 x); [reflexivity|]. rewrite E. apply in_or_app. right. left. reflexivity. }
  cbn [m_before m_after m_caps]. rewrite m_seq, m_cls, in_one, N.eqb_refl, m_seq, m_group.
  rewrite <- (app_nil_r [60; 47; 116; y; 62]) at 1. apply m_star_back.
  - apply all_any.
  - exact I.
  - cbn [m_before m_after m_caps]. rewrite app_nil_r. do 4 (rewrite m_seq, m_cls, in_one, N.eqb_refl). rewrite m_cls, in_one, N.eqb_refl. reflexivity.
  - intros v1 v2 x E. rewrite app_nil_r. cbn [m_before m_after m_caps]. rewrite m_seq.
    assert (match v2 with [] => True | z :: _ => z <> 60 end) as G.
    { destruct v2 as [|z v2]; [exact I|]. intros ->. assert (In 60 [47; 116; y; 62]) as F; [|cbn [In] in F; intuition (try discriminate; auto)].
      destruct v1 as [|a0 v1]; cbn [app] in E; injection E as E1 E2; [discriminate|]. rewrite E2. rewrite in_app_iff. right. left. reflexivity. }
    destruct v2 as [|z v2]; [apply m_cls_nil|]. rewrite m_cls, in_one. apply N.eqb_neq in G. rewrite G. reflexivity.
Qed.
Lemma count_none x c : ~ In x c -> count_char x c = 0%nat.
Proof.
  unfold count_char. induction c as [|y c IH]; intros H; [reflexivity|]. cbn [filter]. destruct (N.eqb_spec x y) as [->|Hy]; [exfalso; apply H; left; reflexivity|]. apply IH. intros F. apply H. right. exact F.
Qed.
Lemma cell_breaks T y a c : y <> 60 -> ~ In 62 a -> ~ In 10 c -> forall s, replace_allM (cell_re y) (f_tag_br T [116; y]) ([10; 9; 9; 9] ++ in_cell y a c) s = Ret ([10; 9; 9; 9] ++ in_cell y a c) s.
Proof.
  intros Hy Ha Hc s. destruct (cell_hit y (rev [10; 9; 9; 9]) a c Hy Ha) as (b & M). match type of M with _ = Some ?x => set (st := x) in * end.
  assert (E : segs (cell_re y) ([10; 9; 9; 9] ++ in_cell y a c) = map Lit [10; 9; 9; 9] ++ [Hit (mk_hit_of (in_cell y a c) st)]).
  { unfold segs. rewrite scan_pass; [|discriminate|].
    - f_equal. rewrite app_nil_r. rewrite <- (app_nil_r (in_cell y a c)) in M |- *. rewrite (scan_take _ _ (in_cell y a c) [] st false); [|discriminate|exact M|reflexivity]. rewrite scan_nil. rewrite app_nil_r. reflexivity.
    - intros a0 x r Ex. unfold match_at, cell_re. rewrite m_seq, m_cls, in_one. assert (x <> 60) as Hx; [|apply N.eqb_neq in Hx; rewrite Hx; reflexivity].
      intros ->. assert (In 60 [10; 9; 9; 9]) as F by (rewrite Ex, in_app_iff; right; left; reflexivity). cbn [In] in F. intuition discriminate. }
  unfold replace_allM. rewrite E. unfold bind. rewrite mapM_app. unfold bind. rewrite mapM_lits. cbn [mapM]. unfold bind. cbn [replace_segM].
  assert (F : forall s, f_tag_br T [116; y] (mk_hit_of (in_cell y a c) st) s = Ret (in_cell y a c) s).
  { intros s1. unfold f_tag_br, capx, cap_opt, mk_hit_of, st. cbn [h_caps m_caps]. unfold cap_text. cbn [find_cap Nat.eqb option_map]. rewrite !cap_str_app. cbn [of_opt]. unfold bind, ret.
    unfold insert_brs. rewrite count_none by exact Hc. reflexivity. }
  rewrite F. unfold ret. rewrite concat_app. cbn [List.concat]. rewrite concat_singles, app_nil_r. reflexivity.
Qed.
(** *** Attributes of cells *)
Definition cell_attrs (c : cell) : list (str * str) :=
  match c_col c with Some n => [(u "colspan", dec n)] | None => [] end ++ match c_row c with Some n => [(u "rowspan", dec n)] | None => [] end
  ++ match cell_style c with [] => [] | l => [(u "style", join (u "; ") l ++ u ";")] end.
Lemma meant_cell b c : SpecAtts.meant ElTd true b (items_of c ++ [SpecAtts.Stop]) = cell_attrs c.
Proof. destruct b, c as [[] [m|] [n|] [v|] [a|] t]; reflexivity. Qed.
Lemma items_fine b c : SpecAtts.items_ok ElTd b (items_of c ++ [SpecAtts.Stop]).
Proof.
  split; [|split].
  - destruct c as [[] [m|] [n|] [v|] [a|] t]; cbn; repeat (constructor; [cbn; intuition discriminate|]); constructor.
  - intros x Hx. destruct c as [h m n v a t]. unfold items_of in Hx. rewrite !in_app_iff in Hx. cbn [c_head c_col c_row c_valign c_halign] in Hx.
    destruct h, m, n, v, a; cbn [In] in Hx; repeat match type of Hx with _ \/ _ => destruct Hx as [Hx|Hx] end; try contradiction; subst x; exact I.
  - intros x n mid m y E. exfalso. assert (In (SpecAtts.PadLeft n) (items_of c ++ [SpecAtts.Stop])) as F.
    { assert (In (SpecAtts.PadLeft n) (filter (SpecAtts.kept b) (items_of c ++ [SpecAtts.Stop]))) as F by (rewrite E; apply in_or_app; right; left; reflexivity). apply filter_In in F. apply F. }
    destruct c as [h m0 n0 v a t]. unfold items_of in F. rewrite !in_app_iff in F. cbn [c_head c_col c_row c_valign c_halign] in F.
    destruct h, m0, n0, v, a; cbn [In] in F; repeat match type of F with _ \/ _ => destruct F as [F|F] end; try contradiction; discriminate.
Qed.
Lemma marks_items c : items_of c <> [] -> marks_of c = SpecAtts.items_text (items_of c ++ [SpecAtts.Stop]).
Proof. intros H. unfold marks_of. destruct (items_of c); [congruence|]. unfold SpecAtts.items_text. rewrite flat_map_app. reflexivity. Qed.
Lemma marks_attrs b c s : items_of c <> [] -> exists a, block_attributes_parse (marks_of c) ElTd true b s = Ret a s /\ ba_html_attrs a = cell_attrs c.
Proof.
  intros H. rewrite marks_items by exact H. destruct (ProofItemsTop.parse_items ElTd b (items_of c ++ [SpecAtts.Stop]) true s ltac:(discriminate) (items_fine b c)) as (a & E1 & E2). exists a. split; [exact E1|]. rewrite E2. apply meant_cell.
Qed.
Definition inert_b (c : N) : bool := seqb (encode_char false true c) [c] && negb (c =? 34).
Lemma inert_of t : forallb inert_b t = true -> forall c, In c t -> ProofLinked.inert_char c.
Proof. intros H c Hc. rewrite forallb_forall in H. specialize (H c Hc). apply andb_prop in H as [H1 H2]. apply seqb_eq in H1. apply negb_true_iff, N.eqb_neq in H2. split; assumption. Qed.
Lemma dec_inert n : forall c, In c (dec n) -> ProofLinked.inert_char c.
Proof. apply inert_of. apply forallb_forall. intros x Hx. pose proof (dec_digit n) as D. rewrite forallb_forall in D. apply D in Hx. revert x Hx. apply (digit_cases inert_b). vm_compute. reflexivity. Qed.
Lemma style_inert c : match cell_style c with [] => True | l => forallb inert_b (join (u "; ") l ++ u ";") = true /\ ~ In 62 (join (u "; ") l) end.
Proof.
  assert (K : forall l, forallb (fun x => inert_b x && negb (x =? 62)) (join (u "; ") l ++ u ";") = true -> forallb inert_b (join (u "; ") l ++ u ";") = true /\ ~ In 62 (join (u "; ") l)).
  { intros l H. split; [apply forallb_forall; intros x Hx; rewrite forallb_forall in H; apply H, andb_prop in Hx; apply Hx|]. intros F. rewrite forallb_forall in H. specialize (H 62 (in_or_app _ _ _ (or_introl F))). discriminate. }
  destruct c as [h m n v a t]. unfold cell_style. cbn [c_head c_col c_row c_valign c_halign].
  assert (A : match match a with Some a => [u "text-align:" ++ SpecAtts.halign_name a] | None => [] end with [] => True | l => forallb inert_b (join (u "; ") l ++ u ";") = true /\ ~ In 62 (join (u "; ") l) end) by (destruct a as [[]|]; [apply K; vm_compute; reflexivity..|exact I]).
  destruct h; [exact A|]. destruct m; [exact A|]. destruct n; [exact A|]. destruct v as [v|]; [|exact A]. destruct v, a as [[]|]; apply K; vm_compute; reflexivity.
Qed.
Lemma attr_inert k v : forallb is_valid_attribute_char k = true -> (forall c, In c v -> ProofLinked.inert_char c) -> flat_map attr_str (filter (fun a => forallb is_valid_attribute_char (fst a)) [(k, v)]) = 32 :: k ++ 61 :: 34 :: v ++ [34].
Proof. intros H1 H2. cbn [filter fst]. rewrite H1. cbn [flat_map]. unfold attr_str. cbn [fst snd]. rewrite ProofLinked.quote_inert by exact H2. rewrite app_nil_r. reflexivity. Qed.
Lemma attrs_str c : flat_map attr_str (filter (fun a => forallb is_valid_attribute_char (fst a)) (cell_attrs c)) = cell_atts c.
Proof.
  unfold cell_attrs, cell_atts. rewrite !filter_app, !flat_map_app. f_equal; [|f_equal].
  - destruct (c_col c); [|reflexivity]. rewrite attr_inert; [reflexivity|reflexivity|apply dec_inert].
  - destruct (c_row c); [|reflexivity]. rewrite attr_inert; [reflexivity|reflexivity|apply dec_inert].
  - pose proof (style_inert c) as H. destruct (cell_style c) as [|x l]; [reflexivity|]. rewrite attr_inert; [|reflexivity|apply inert_of, H]. change (u ";""") with (u ";" ++ [34]). rewrite !app_assoc. reflexivity.
Qed.
Lemma atts_no_gt c : ~ In 62 (cell_atts c).
Proof.
  unfold cell_atts. rewrite !in_app_iff. assert (D : forall n, ~ In 62 (dec n)) by (intros n F; pose proof (dec_digits n) as D; rewrite Forall_forall in D; apply D in F; lia).
  assert (C : forall w, forallb (fun x => negb (x =? 62)) w = true -> ~ In 62 w) by (intros w H F; rewrite forallb_forall in H; specialize (H 62 F); discriminate).
  intros [F|[F|F]].
  - destruct (c_col c) as [n|]; [|destruct F]. rewrite !in_app_iff in F. destruct F as [F|[F|F]]; [revert F; apply C; vm_compute; reflexivity|exact (D n F)|revert F; apply C; vm_compute; reflexivity].
  - destruct (c_row c) as [n|]; [|destruct F]. rewrite !in_app_iff in F. destruct F as [F|[F|F]]; [revert F; apply C; vm_compute; reflexivity|exact (D n F)|revert F; apply C; vm_compute; reflexivity].
  - pose proof (style_inert c) as H. destruct (cell_style c) as [|x l]; [destruct F|]. rewrite !in_app_iff in F. destruct F as [F|[F|F]]; [revert F; apply C; vm_compute; reflexivity|exact (proj2 H F)|revert F; apply C; vm_compute; reflexivity].
Qed.
Lemma cell_tag T c : ~ In 10 (c_text c) -> leaves T (do_tag_br T (if c_head c then u "th" else u "td") (nl ++ tab ++ tab ++ tab ++ generate_tag (if c_head c then u "th" else u "td") (Some (c_text c)) (cell_attrs c))) (cell_html c).
Proof.
  intros Hc. assert (G : forall y, y = 104 \/ y = 100 -> generate_tag [116; y] (Some (c_text c)) (cell_attrs c) = in_cell y (cell_atts c) (c_text c)).
  { intros y Hy. unfold generate_tag. assert (forallb is_alphanumeric [116; y] = true) as Ef by (destruct Hy as [-> | ->]; vm_compute; reflexivity). cbn [is_empty]. rewrite Ef. cbn [negb]. cbv iota. unfold join_html_attributes. rewrite attrs_str.
    unfold in_cell. change (u "<" ++ [116; y]) with [60; 116; y]. change (u "</" ++ [116; y] ++ u ">") with [60; 47; 116; y; 62]. cbn [app]. reflexivity. }
  unfold cell_html. destruct (c_head c).
  - change (u "th") with [116; 104]. rewrite (G 104) by (left; reflexivity). assert (u "<th" ++ cell_atts c ++ u ">" ++ c_text c ++ u "</th>" = in_cell 104 (cell_atts c) (c_text c)) as -> by reflexivity.
    unfold do_tag_br. assert (tag_br_re [116; 104] = Some th_re) as -> by reflexivity.
    apply (leaves_cached T 1060 (u "th") th_re (fun p => replace_allM (rx_re p) (f_tag_br T (u "th")) _)); [reflexivity|]. intros s. rewrite th_shape. apply cell_breaks; [discriminate|apply atts_no_gt|exact Hc].
  - change (u "td") with [116; 100]. rewrite (G 100) by (right; reflexivity). assert (u "<td" ++ cell_atts c ++ u ">" ++ c_text c ++ u "</td>" = in_cell 100 (cell_atts c) (c_text c)) as -> by reflexivity.
    unfold do_tag_br. assert (tag_br_re [116; 100] = Some td_re) as -> by reflexivity.
    apply (leaves_cached T 1060 (u "td") td_re (fun p => replace_allM (rx_re p) (f_tag_br T (u "td")) _)); [reflexivity|]. intros s. rewrite td_shape. apply cell_breaks; [discriminate|apply atts_no_gt|exact Hc].
Qed.

(** ** The expressions of cells *)
Lemma text_no r t : (t = [] \/ accepts cell_text t) -> In r (start_cls ws_cls :: map (fun c => RCls (ch c)) [10; 124; 60; 62] ++ map rx_re [HEADING_RE; CMTCH_RE; RC_PATTERN; LIST_RE]) -> no_match r t.
Proof.
  intros [->|H] Hr; [|eapply never_in; [exact cell_inert|exact H|exact Hr]].
  assert (K : forallb (fun r => negb (is_match r [])) (start_cls ws_cls :: map (fun c => RCls (ch c)) [10; 124; 60; 62] ++ map rx_re [HEADING_RE; CMTCH_RE; RC_PATTERN; LIST_RE]) = true) by (vm_compute; reflexivity).
  rewrite forallb_forall in K. apply no_match_of. apply negb_true_iff. apply K. exact Hr.
Qed.
Lemma a_shape : rx_re CELL_A_PATTERN_RE = RSeq (RGroup 1 (RStar true (RCls ws_cls))) (RGroup 2 (RStar true (RCls any_cls))).
Proof. reflexivity. Qed.
Lemma a_hit t : (t = [] \/ accepts cell_text t) -> exists h, captures (rx_re CELL_A_PATTERN_RE) t = Some h /\ cap_opt 1 h = Some [] /\ cap_opt 2 h = Some t.
Proof.
  intros H. assert (St : stops ws_cls t).
  { destruct t as [|c t]; [exact I|]. apply (no_start_cls ws_cls c t). apply text_no; [exact H|left; reflexivity]. }
  assert (exists b, match_at (rx_re CELL_A_PATTERN_RE) [] t = Some (mk_mst b [] [(2%nat, (t, [])); (1%nat, (t, t))])) as (b & E).
  { eexists. unfold match_at. rewrite a_shape, m_seq, m_group. apply (m_star_greedy ws_cls _ _ [] [] t []); [reflexivity|exact St|]. cbn [m_before m_after m_caps rev app]. rewrite m_group.
    rewrite <- (app_nil_r t) at 1. apply (m_star_greedy any_cls _ _ t [] [] _); [apply all_any|exact I|]. cbn [m_before m_after m_caps]. reflexivity. }
  apply captures_first in E. eexists. split; [exact E|]. unfold cap_opt, mk_hit_of, cap_text. cbn [h_caps m_caps find_cap Nat.eqb option_map]. rewrite cap_none. split; [reflexivity|].
  f_equal. rewrite <- (app_nil_r t) at 1. apply cap_str_app.
Qed.
(** *** Repetition *)
Definition takes (a : re) (before w rest : str) : Prop := forall cs k x, k (mk_mst (rev w ++ before) rest cs) = Some x -> m a (mk_mst before (w ++ rest) cs) k = Some x.
Lemma star_takes a k x c rest cs : dead a c = true -> forall ws before f, (List.length ws <= List.length f)%nat ->
  (forall l w r, ws = l ++ w :: r -> takes a (rev (List.concat l) ++ before) w (List.concat r ++ c :: rest)) ->
  k (mk_mst (rev (List.concat ws) ++ before) (c :: rest) cs) = Some x -> star_loop true a k f (mk_mst before (List.concat ws ++ c :: rest) cs) = Some x.
Proof.
  intros Hd. induction ws as [|w ws IH]; intros before f Hf Ht Hk.
  - cbn [List.concat rev app] in *. destruct f as [|z f]; [exact Hk|]. rewrite star_loop_cons. rewrite m_dead by exact Hd. exact Hk.
  - destruct f as [|z f]; [cbn in Hf; lia|]. rewrite star_loop_cons. cbn [List.concat]. rewrite <- app_assoc.
    assert (m a (mk_mst before (w ++ List.concat ws ++ c :: rest) cs) (star_loop true a k f) = Some x) as ->; [|reflexivity]. apply (Ht [] w ws eq_refl cs (star_loop true a k f) x). cbn [List.concat rev app]. apply IH; [cbn in Hf; lia| |].
    + intros l v r E cs0 k0 x0 H0. specialize (Ht (w :: l) v r). cbn [List.concat] in Ht. rewrite rev_app_distr, <- app_assoc in Ht. apply Ht; [rewrite E; reflexivity|exact H0].
    + cbn [List.concat] in Hk. rewrite rev_app_distr, <- app_assoc in Hk. exact Hk.
Qed.
Lemma m_star_takes a k x c rest cs ws before : dead a c = true -> (forall w, In w ws -> w <> []) ->
  (forall l w r, ws = l ++ w :: r -> takes a (rev (List.concat l) ++ before) w (List.concat r ++ c :: rest)) ->
  k (mk_mst (rev (List.concat ws) ++ before) (c :: rest) cs) = Some x -> m (RStar true a) (mk_mst before (List.concat ws ++ c :: rest) cs) k = Some x.
Proof.
  intros Hd Hn Ht Hk. rewrite m_star. cbn [m_after]. apply star_takes; auto. enough (List.length ws <= List.length (List.concat ws))%nat by (rewrite app_length; lia). clear - Hn. induction ws as [|w ws IH]; [cbn; lia|]. cbn [List.concat List.length]. rewrite app_length. specialize (IH (fun v Hv => Hn v (or_intror Hv))).
  assert (0 < List.length w)%nat by (specialize (Hn w (or_introl eq_refl)); destruct w; [congruence|cbn; lia]). lia.
Qed.
(** *** The marks of a cell *)
Definition span_body : re := Eval vm_compute in match rx_re CMTCH_RE with RSeq _ (RSeq (RGroup _ (RSeq _ (RSeq (RStar _ a) _))) _) => a | _ => REps end.
Definition align_body : re := Eval vm_compute in match rx_re CMTCH_RE with RSeq _ (RSeq (RGroup _ (RSeq _ (RSeq _ (RSeq (RStar _ a) _)))) _) => a | _ => REps end.
Lemma c_shape : exists c, rx_re CMTCH_RE = RSeq (RAssert SOT) (RSeq (RGroup 1 (RSeq (RAlt (RCls (one 95)) REps) (RSeq (RStar true span_body) (RSeq (RStar true align_body) (RSeq c (RSeq (RCls (one 46)) (RCls (one 32)))))))) (RGroup 2 (RStar true (RCls any_cls)))) /\
  skips c 46 = true.
Proof. eexists. split; [reflexivity|]. vm_compute; reflexivity. Qed.
Lemma not_span : forallb (dead span_body) (u "-^~<>=.") = true.
Proof. vm_compute. reflexivity. Qed.
Lemma not_align : dead align_body 46 = true.
Proof. vm_compute. reflexivity. Qed.
Lemma span_takes o n before c rest : o = 92 \/ o = 47 -> in_cls ProofItems.nd c = false -> takes span_body before (o :: dec n) (c :: rest).
Proof.
  intros Ho Hc cs k x Hk. destruct (dec_spec n) as (Hn & Hd & _). destruct (dec n) as [|d w]; [congruence|]. cbn [forallb] in Hd. apply andb_prop in Hd as [Hd Hw].
  assert (Hw2 : forallb (in_cls ProofItems.nd) w = true) by (apply forallb_forall; intros y Hy; apply ProofItems.digit_nd; rewrite forallb_forall in Hw; apply Hw, Hy).
  assert (G : m (RSeq (RCls (one o)) (RSeq (RCls ProofItems.nd) (RStar true (RCls ProofItems.nd)))) (mk_mst before ((o :: d :: w) ++ c :: rest) cs) k = Some x).
  { cbn [app]. rewrite m_seq, m_cls, in_one, N.eqb_refl, m_seq, m_cls, (ProofItems.digit_nd d Hd). apply m_star_greedy; [exact Hw2|exact Hc|]. cbn [rev] in Hk. rewrite <- !app_assoc in Hk. exact Hk. }
  change span_body with (RAlt (RSeq (RCls (one 92)) (RSeq (RCls ProofItems.nd) (RStar true (RCls ProofItems.nd)))) (RSeq (RCls (one 47)) (RSeq (RCls ProofItems.nd) (RStar true (RCls ProofItems.nd))))).
  destruct Ho as [-> | ->]; [apply m_alt_l; exact G|]. rewrite m_alt_r; [exact G|]. cbn [app]. rewrite m_seq, m_cls, in_one. reflexivity.
Qed.
Lemma align_shape : exists h, align_body = RAlt h (RCls valign) /\ forallb (dead h) [94; 45; 126] = true.
Proof. eexists. split; [reflexivity|]. vm_compute. reflexivity. Qed.
Lemma valign_takes v before rest : takes align_body before (SpecAtts.valign_mark v) rest.
Proof.
  intros cs k x Hk. destruct align_shape as (h & Es & Hd). rewrite forallb_forall in Hd. rewrite Es.
  destruct v; cbn [SpecAtts.valign_mark] in *; [change (u "^") with [94] in *|change (u "-") with [45] in *|change (u "~") with [126] in *]; cbn [rev app] in *;
    rewrite m_alt_r by (apply m_dead, Hd; cbn [In]; tauto); rewrite m_cls; exact Hk.
Qed.
Lemma halign_takes a before rest : match before with z :: _ => z <> 60 | [] => True end -> takes align_body before (SpecAtts.halign_mark a) (46 :: rest).
Proof.
  intros Hb cs k x Hk. change align_body with (RAlt (RAlt (RSeq (RCls (one 60)) (RNLook (RCls (one 62)))) (RAlt (RSeq (RNLook (RBack (one 60))) (RCls (one 62))) (RAlt (RSeq (RCls (one 60)) (RCls (one 62))) (RAlt (RCls (one 61)) (RSeq (RSeq (RCls ProofItemsTop.parens) (RStar true (RCls ProofItemsTop.parens))) (RNLook (RCls (one 32)))))))) (RCls valign)).
  assert (Nb : forall y cs (k : mst -> option mst), m (RSeq (RNLook (RBack (one 60))) (RCls (one 62))) (mk_mst before (y :: 46 :: rest) cs) k = if y =? 62 then k (mk_mst (62 :: before) (46 :: rest) cs) else None).
  { intros y cs0 k0. rewrite m_seq, m_nlook. destruct before as [|z before]; [rewrite m_back_nil|rewrite m_back, in_one; apply N.eqb_neq in Hb; rewrite Hb]; rewrite m_cls, in_one; destruct (N.eqb_spec y 62) as [->|]; reflexivity. }
  destruct a; cbn [SpecAtts.halign_mark] in *.
  - change (u "<") with [60] in *. cbn [app rev] in *. apply m_alt_l, m_alt_l. rewrite m_seq, m_cls, in_one, N.eqb_refl, m_nlook, m_cls, in_one. exact Hk.
  - change (u ">") with [62] in *. cbn [app rev] in *. apply m_alt_l. rewrite m_alt_r by (rewrite m_seq, m_cls, in_one; reflexivity). apply m_alt_l. rewrite Nb. exact Hk.
  - change (u "=") with [61] in *. cbn [app rev] in *. apply m_alt_l. rewrite m_alt_r by (rewrite m_seq, m_cls, in_one; reflexivity). rewrite m_alt_r by (rewrite Nb; reflexivity). rewrite m_alt_r by (rewrite m_seq, m_cls, in_one; reflexivity). apply m_alt_l. rewrite m_cls, in_one, N.eqb_refl. exact Hk.
  - change (u "<>") with [60; 62] in *. cbn [app rev] in *. apply m_alt_l. rewrite m_alt_r by (rewrite m_seq, m_cls, in_one, N.eqb_refl, m_nlook, m_cls, in_one; reflexivity).
    rewrite m_alt_r. { apply m_alt_l. rewrite m_seq, m_cls, in_one, N.eqb_refl, m_cls, in_one, N.eqb_refl. exact Hk. }
    rewrite m_seq, m_nlook. destruct before as [|z before]; [rewrite m_back_nil|rewrite m_back, in_one; apply N.eqb_neq in Hb; rewrite Hb]; rewrite m_cls, in_one; reflexivity.
Qed.
Definition opt_list {A} (f : A -> str) (o : option A) : list str := match o with Some x => [f x] | None => [] end.
Definition no_less (before : str) : Prop := match before with z :: _ => z <> 60 | [] => True end.
Lemma dec_last n : exists w d, dec n = w ++ [d] /\ is_digit_ascii d = true.
Proof. destruct (dec_spec n) as (Hn & Hd & _). destruct (exists_last Hn) as (w & d & E). exists w, d. split; [exact E|]. rewrite E, forallb_app in Hd. apply andb_prop in Hd as [_ Hd]. cbn [forallb] in Hd. apply andb_prop in Hd as [Hd _]. exact Hd. Qed.
Lemma aligns_run v a before rest cs k x : no_less before -> let w := opt_text SpecAtts.valign_mark v ++ opt_text SpecAtts.halign_mark a in
  k (mk_mst (rev w ++ before) (46 :: rest) cs) = Some x -> m (RStar true align_body) (mk_mst before (w ++ 46 :: rest) cs) k = Some x.
Proof.
  intros Hb w Hk. assert (Ew : w = List.concat (opt_list SpecAtts.valign_mark v ++ opt_list SpecAtts.halign_mark a)).
  { unfold w. rewrite concat_app. f_equal; [destruct v|destruct a]; cbn [opt_text opt_list List.concat]; rewrite ?app_nil_r; reflexivity. }
  rewrite Ew in *. apply m_star_takes; [exact not_align| | |exact Hk].
  - intros y Hy. destruct v as [[]|], a as [[]|]; cbn [opt_list app In SpecAtts.valign_mark SpecAtts.halign_mark] in Hy; intuition (subst; discriminate).
  - intros l y r E. destruct v as [v|], a as [a|]; cbn [opt_list app] in E.
    + destruct l as [|l0 l]; cbn [app] in E; injection E as <- E; [apply valign_takes|]. destruct l as [|l1 l]; cbn [app] in E; [|injection E as _ E; destruct l; discriminate]. injection E as <- <-. cbn [List.concat app]. apply halign_takes. rewrite app_nil_r. destruct v; cbn; discriminate.
    + destruct l as [|l0 l]; cbn [app] in E; injection E as <- E; [apply valign_takes|]. destruct l; discriminate.
    + destruct l as [|l0 l]; cbn [app] in E; injection E as <- E; [|destruct l; discriminate]. subst r. cbn [List.concat app]. apply halign_takes. exact Hb.
    + destruct l; discriminate.
Qed.
Lemma spans_run (p q : option N) before c rest cs k x : dead span_body c = true -> in_cls ProofItems.nd c = false -> let w := opt_text (fun n => 92 :: dec n) p ++ opt_text (fun n => 47 :: dec n) q in
  k (mk_mst (rev w ++ before) (c :: rest) cs) = Some x -> m (RStar true span_body) (mk_mst before (w ++ c :: rest) cs) k = Some x.
Proof.
  intros Hd Hc w Hk. assert (Ew : w = List.concat (opt_list (fun n => 92 :: dec n) p ++ opt_list (fun n => 47 :: dec n) q)).
  { unfold w. rewrite concat_app. f_equal; [destruct p|destruct q]; cbn [opt_text opt_list List.concat]; rewrite ?app_nil_r; reflexivity. }
  rewrite Ew in *. apply m_star_takes; [exact Hd| | |exact Hk].
  - intros y Hy. destruct p, q; cbn [opt_list app In] in Hy; intuition (subst; discriminate).
  - intros l y r E. destruct p as [p|], q as [q|]; cbn [opt_list app] in E.
    + destruct l as [|l0 l]; cbn [app] in E; injection E as <- E; [subst r; cbn [List.concat app]; apply span_takes; [left; reflexivity|reflexivity]|]. destruct l as [|l1 l]; cbn [app] in E; [|injection E as _ E; destruct l; discriminate]. injection E as <- <-. cbn [List.concat app]. apply span_takes; [right; reflexivity|exact Hc].
    + destruct l as [|l0 l]; cbn [app] in E; injection E as <- E; [|destruct l; discriminate]. subst r. cbn [List.concat app]. apply span_takes; [left; reflexivity|exact Hc].
    + destruct l as [|l0 l]; cbn [app] in E; injection E as <- E; [|destruct l; discriminate]. subst r. cbn [List.concat app]. apply span_takes; [right; reflexivity|exact Hc].
    + destruct l; discriminate.
Qed.
Lemma after_spans v a rest : exists c z, (opt_text SpecAtts.valign_mark v ++ opt_text SpecAtts.halign_mark a) ++ 46 :: rest = c :: z /\ In c [94; 45; 126; 60; 62; 61; 46].
Proof.
  destruct v as [[]|]; [..|destruct a as [[]|]]; cbn [opt_text SpecAtts.valign_mark SpecAtts.halign_mark app]; eexists _, _; (split; [reflexivity|cbn [In]; tauto]).
Qed.
Lemma not_spans : forallb (fun c => dead span_body c && negb (in_cls ProofItems.nd c)) [94; 45; 126; 60; 62; 61; 46] = true.
Proof. vm_compute. reflexivity. Qed.
Lemma marks_text c : items_of c <> [] -> marks_of c = (if c_head c then [95] else []) ++ (opt_text (fun n => 92 :: dec n) (c_col c) ++ opt_text (fun n => 47 :: dec n) (c_row c)) ++ (opt_text SpecAtts.valign_mark (c_valign c) ++ opt_text SpecAtts.halign_mark (c_halign c)) ++ [46; 32].
Proof. intros H. unfold marks_of. rewrite <- !app_assoc. change (u ". ") with [46; 32]. assert (E : match items_of c with [] => [] | l => SpecAtts.items_text l ++ [46; 32] end = SpecAtts.items_text (items_of c) ++ [46; 32]) by (destruct (items_of c); [congruence|reflexivity]). unfold str in *. rewrite E, marks_are, <- !app_assoc. reflexivity. Qed.
Lemma c_hit c t : items_of c <> [] -> exists h, captures (rx_re CMTCH_RE) (marks_of c ++ t) = Some h /\ cap_opt 1 h = Some (marks_of c) /\ cap_opt 2 h = Some t.
Proof.
  intros Hn. destruct c_shape as (z & Es & Sz).
  assert (exists b, match_at (rx_re CMTCH_RE) [] (marks_of c ++ t) = Some (mk_mst b [] [(2%nat, (t, [])); (1%nat, (marks_of c ++ t, t))])) as (b & E).
  { rewrite marks_text by exact Hn. rewrite <- !app_assoc. change ([46; 32] ++ t) with (46 :: 32 :: t).
    set (S1 := opt_text _ (c_col c)). set (S2 := opt_text _ (c_row c)). set (V := opt_text _ (c_valign c)). set (A := opt_text _ (c_halign c)). set (H := if c_head c then [95] else []).
    set (all := H ++ S1 ++ S2 ++ V ++ A ++ 46 :: 32 :: t).
    destruct (after_spans (c_valign c) (c_halign c) (32 :: t)) as (c0 & y & E0 & I0). fold V A in E0. rewrite <- app_assoc in E0.
    pose proof not_spans as D. rewrite forallb_forall in D. pose proof (D c0 I0) as D0. apply andb_prop in D0 as [D0 N0]. apply negb_true_iff in N0.
    exists (rev t ++ 32 :: 46 :: rev (V ++ A) ++ rev (S1 ++ S2) ++ rev H). unfold match_at. rewrite Es, m_seq, m_assert. cbn [assert_holds is_empty]. rewrite m_seq, m_group, m_seq.
    assert (G : forall k, m (RAlt (RCls (one 95)) REps) (mk_mst [] all []) k = match k (mk_mst (rev H) (S1 ++ S2 ++ V ++ A ++ 46 :: 32 :: t) []) with Some x => Some x | None => m (RAlt (RCls (one 95)) REps) (mk_mst [] all []) k end).
    { intros k. destruct (k (mk_mst (rev H) (S1 ++ S2 ++ V ++ A ++ 46 :: 32 :: t) [])) eqn:Ek; [|reflexivity]. unfold all, H in *. destruct (c_head c).
      - cbn [app rev] in *. apply m_alt_l. rewrite m_cls, in_one, N.eqb_refl. exact Ek.
      - cbn [app rev] in *. rewrite m_alt_r; [rewrite m_eps; exact Ek|]. rewrite E0. unfold S1, S2. destruct (c_col c); [reflexivity|]. destruct (c_row c); [reflexivity|]. cbn [opt_text app]. rewrite m_cls, in_one. assert (c0 <> 95) as Hc by (intros ->; cbn [In] in I0; intuition discriminate). apply N.eqb_neq in Hc. rewrite Hc. reflexivity. }
    rewrite G. clear G. match goal with |- match ?a with Some x => Some x | None => _ end = Some ?r => assert (a = Some r) as ->; [|reflexivity] end.
    rewrite E0. rewrite (app_assoc S1 S2). rewrite m_seq. apply spans_run; [exact D0|exact N0|]. rewrite <- E0. fold S1 S2. rewrite m_seq. rewrite (app_assoc V A).
    apply aligns_run.
    { assert (forall n l, no_less (rev (l ++ dec n) ++ rev H)) as Q. { intros n l. destruct (dec_last n) as (w & d & Ed & Hd). rewrite Ed, app_assoc, rev_app_distr. cbn [rev app no_less]. intros ->. discriminate. }
      unfold S1, S2. destruct (c_row c) as [n|]; cbn [opt_text]; [|rewrite app_nil_r; destruct (c_col c) as [n|]; cbn [opt_text]; [apply (Q n [92])|]].
      - change (47 :: dec n) with ([47] ++ dec n). rewrite app_assoc. apply Q.
      - cbn [rev app]. unfold H. destruct (c_head c); cbn; [discriminate|exact I]. }
    fold V A. rewrite m_seq, (m_skip z) by exact Sz. rewrite m_seq, m_cls, in_one, N.eqb_refl, m_cls, in_one, N.eqb_refl. cbn [m_before m_after m_caps]. rewrite m_group.
    rewrite <- (app_nil_r t) at 1. apply (m_star_greedy any_cls _ _ t _ [] _); [apply all_any|exact I|]. cbn [m_before m_after m_caps]. reflexivity. }
  apply captures_first in E. eexists. split; [exact E|]. unfold cap_opt, mk_hit_of, cap_text. cbn [h_caps m_caps find_cap Nat.eqb option_map].
  split; f_equal; [apply cap_str_app|]. rewrite <- (app_nil_r t) at 1. apply cap_str_app.
Qed.
(** *** Headings *)
Definition after_head := [92; 47; 94; 45; 126; 60; 62; 61; 46].
Lemma h_shape : exists a b, rx_re HEADING_RE = RSeq (RAssert SOT) (RSeq (RCls (one 95)) (RLook (RAlt (RCls a) (RCls b)))) /\ forallb (fun c => in_cls a c || in_cls b c) after_head = true.
Proof. eexists _, _. split; [reflexivity|]. vm_compute. reflexivity. Qed.
Lemma marks_head c t : items_of c <> [] -> exists x y, marks_of c ++ t = (if c_head c then [95] else []) ++ x :: y /\ In x after_head.
Proof.
  intros Hn. rewrite marks_text by exact Hn. rewrite <- !app_assoc. change ([46; 32] ++ t) with (46 :: 32 :: t). destruct (after_spans (c_valign c) (c_halign c) (32 :: t)) as (c0 & y & E0 & I0). rewrite <- app_assoc in E0. rewrite E0. unfold after_head.
  destruct (c_col c) as [n|]; cbn [opt_text app]; [eexists _, _; split; [reflexivity|cbn [In]; tauto]|]. destruct (c_row c) as [n|]; cbn [opt_text app]; [eexists _, _; split; [reflexivity|cbn [In]; tauto]|].
  exists c0, y. split; [reflexivity|]. cbn [In] in *. tauto.
Qed.
Lemma head_is c t : items_of c <> [] -> is_match (rx_re HEADING_RE) (marks_of c ++ t) = c_head c.
Proof.
  intros Hn. destruct h_shape as (a & b & Es & Ha). destruct (marks_head c t Hn) as (x & y & E & Hx). rewrite E, Es. rewrite forallb_forall in Ha. specialize (Ha x Hx). destruct (c_head c); cbn [app].
  - eapply is_match_first with (s := mk_mst [95] (x :: y) []). unfold match_at. rewrite m_seq, m_assert. cbn [assert_holds is_empty]. rewrite m_seq, m_cls, in_one, N.eqb_refl, m_look.
    destruct (in_cls a x) eqn:Ea; [rewrite (m_alt_l _ _ _ _ (mk_mst [x; 95] y [])) by (rewrite m_cls, Ea; reflexivity); reflexivity|]. rewrite m_alt_r by (rewrite m_cls, Ea; reflexivity). rewrite m_cls. cbn [orb] in Ha. rewrite Ha. reflexivity.
  - apply is_match_no_match. intros before after Eb. unfold match_at. rewrite m_seq, m_assert. destruct before as [|z before].
    + cbn [rev assert_holds is_empty]. cbn [app] in Eb. subst after. rewrite m_seq, m_cls, in_one. assert (x <> 95) as Hc by (intros ->; cbn [In after_head] in Hx; intuition discriminate). apply N.eqb_neq in Hc. rewrite Hc. reflexivity.
    + cbn [assert_holds]. destruct (rev (z :: before)) eqn:Er; [apply (f_equal (@List.length _)) in Er; rewrite rev_length in Er; discriminate|reflexivity].
Qed.

(** ** The expressions of rows *)
Lemma k_shape : rx_re COMPONENTS_RE = RSeq (RCls bar) (RSeq (RStar false (RCls ws_cls)) (RAssert EOL)).
Proof. reflexivity. Qed.
Lemma k_miss before c rest : c <> 124 -> match_at (rx_re COMPONENTS_RE) before (c :: rest) = None.
Proof. intros H. unfold match_at. rewrite k_shape, m_seq, m_cls. unfold bar. rewrite in_one. apply N.eqb_neq in H. rewrite H. reflexivity. Qed.
Lemma not_10 x : in_cls ws_cls x = false -> x <> 10.
Proof. intros H ->. discriminate. Qed.
Lemma eol_cons before x rest : x <> 10 -> assert_holds EOL before (x :: rest) = false.
Proof. intros H. cbn [assert_holds]. apply N.eqb_neq. exact H. Qed.
Lemma k_inner before x rest : in_cls ws_cls x = false -> match_at (rx_re COMPONENTS_RE) before (124 :: x :: rest) = None.
Proof.
  intros H. unfold match_at. rewrite k_shape, m_seq, m_cls. change (in_cls bar 124) with true. cbv iota. rewrite m_seq.
  apply (m_star_none ws_cls false _ [] _ (x :: rest) []); [exact H|]. intros w1 w2 E. destruct w1; [|discriminate]. destruct w2; [|discriminate]. cbn [rev app]. rewrite m_assert.
  rewrite eol_cons by (apply not_10; exact H). reflexivity.
Qed.
Lemma none_any r before after k : wf_re r = true -> match_at r before after = None -> m r (mk_mst before after []) k = None.
Proof. intros W H. destruct (m r (mk_mst before after []) k) eqn:E; [|reflexivity]. apply m_sound in E as (s' & Hm & _). exfalso. apply (m_complete r W _ s' Some Hm); [discriminate|exact H]. Qed.
Definition not_nl : cls := Eval vm_compute in match rx_re CAPTION_RE with RSeq _ (RSeq _ (RSeq _ (RSeq _ (RSeq _ (RSeq _ (RSeq (RGroup _ (RStar _ (RCls k))) _)))))) => k | _ => any_cls end.
Lemma g_shape : exists z, rx_re GRPMATCH_RE = RSeq (RAlt grp_re REps) (RSeq (RAssert SOL) (RGroup 4 (RStar true (RCls any_cls)))) /\
  grp_re = RGroup 1 (RSeq (RAlt (RCls (one 58)) REps) (RSeq (RAssert SOL) (RSeq (RCls bar) (RSeq (RGroup 2 (RCls valign)) (RSeq (RGroup 3 z) (RSeq (RCls (one 46)) (RSeq (RStar true (RCls ws_cls)) (RSeq (RAssert EOL) (RCls (one 10)))))))))) /\
  skips z 46 = true /\ wf_re grp_re = true.
Proof. eexists. split; [reflexivity|]. split; [reflexivity|]. split; vm_compute; reflexivity. Qed.
Lemma g_hit y : no_match grp_re y -> exists h, captures (rx_re GRPMATCH_RE) y = Some h /\ cap_opt 2 h = None /\ cap_opt 4 h = Some y.
Proof.
  intros H. destruct g_shape as (z & Es & _ & _ & W).
  assert (exists b, match_at (rx_re GRPMATCH_RE) [] y = Some (mk_mst b [] [(4%nat, (y, []))])) as (b & E).
  { eexists. unfold match_at. rewrite Es, m_seq. rewrite m_alt_r by (apply none_any; [exact W|apply (H [] y eq_refl)]).
    rewrite m_eps, m_seq, m_assert. cbn [assert_holds is_empty]. rewrite m_group. rewrite <- (app_nil_r y) at 1. apply (m_star_greedy any_cls _ _ y [] [] _); [apply all_any|exact I|]. cbn [m_before m_after m_caps]. reflexivity. }
  apply captures_first in E. eexists. split; [exact E|]. unfold cap_opt, mk_hit_of, cap_text. cbn [h_caps m_caps find_cap Nat.eqb option_map]. split; [reflexivity|].
  f_equal. rewrite <- (app_nil_r y) at 1. apply cap_str_app.
Qed.
Lemma group_valign g : in_cls valign (group_mark g) = true.
Proof. destruct g; reflexivity. Qed.
Lemma g_group g c y : in_cls ws_cls c = false -> exists h, captures (rx_re GRPMATCH_RE) ([124; group_mark g; 46; 10] ++ c :: y) = Some h /\ cap_opt 2 h = Some [group_mark g] /\ cap_opt 3 h = Some [] /\ cap_opt 4 h = Some (c :: y).
Proof.
  intros Hc. destruct g_shape as (z & Es & Eg & Sz & _). set (mk := group_mark g). set (w := [124; mk; 46; 10] ++ c :: y).
  assert (exists b, match_at (rx_re GRPMATCH_RE) [] w = Some (mk_mst b [] [(4%nat, (c :: y, [])); (1%nat, (w, c :: y)); (3%nat, (46 :: 10 :: c :: y, 46 :: 10 :: c :: y)); (2%nat, (mk :: 46 :: 10 :: c :: y, 46 :: 10 :: c :: y))])) as (b & E).
  { eexists. unfold match_at, w. rewrite Es, m_seq. apply m_alt_l. rewrite Eg, m_group, m_seq. cbn [app]. rewrite m_alt_r by (rewrite m_cls, in_one; reflexivity). rewrite m_eps, m_seq, m_assert. cbn [assert_holds is_empty].
    rewrite m_seq, m_cls. change (in_cls bar 124) with true. cbv iota. rewrite m_seq, m_group, m_cls. unfold mk at 1. rewrite group_valign. cbn [m_before m_after m_caps]. rewrite m_seq, m_group, (m_skip z) by exact Sz. cbn [m_before m_after m_caps].
    rewrite m_seq, m_cls, in_one, N.eqb_refl. rewrite m_seq. apply (ProofTags.m_star_back ws_cls _ _ [10] [] _ (c :: y) _); [reflexivity|exact Hc| |].
    - cbn [rev app]. rewrite m_seq, m_assert. cbn [assert_holds]. rewrite N.eqb_refl, m_cls, in_one, N.eqb_refl. cbn [m_before m_after m_caps]. rewrite m_seq, m_assert. cbn [assert_holds]. rewrite N.eqb_refl, m_group.
      rewrite <- (app_nil_r (c :: y)) at 1. apply (m_star_greedy any_cls _ _ (c :: y) _ [] _); [apply all_any|exact I|]. cbn [m_before m_after m_caps]. reflexivity.
    - intros v1 v2 x Ev. assert (v1 = [] /\ v2 = []) as [-> ->] by (destruct v1 as [|? v1]; cbn [app] in Ev; injection Ev as _ Ev; [split; auto|destruct v1; discriminate]). cbn [app]. rewrite m_seq, m_assert, eol_cons by (apply not_10; exact Hc). reflexivity. }
  apply captures_first in E. eexists. split; [exact E|]. unfold cap_opt, mk_hit_of, cap_text. cbn [h_caps m_caps find_cap Nat.eqb option_map].
  split; [f_equal; apply (cap_str_app [mk])|]. split; [f_equal; apply (cap_str_app [])|]. f_equal. rewrite <- (app_nil_r (c :: y)) at 1. apply cap_str_app.
Qed.
Lemma p_shape : exists z, rx_re CAPTION_RE = RSeq (RAssert SOT) (RSeq (RCls bar) (RSeq (RCls (one 61)) (RSeq (RGroup 1 z) (RSeq (RCls (one 46)) (RSeq (RCls (one 32)) (RSeq (RGroup 2 (RStar true (RCls not_nl))) (RGroup 3 (RStar true (RCls any_cls))))))))) /\ skips z 46 = true.
Proof. eexists. split; [reflexivity|]. vm_compute. reflexivity. Qed.
Lemma p_hit c y : ~ In 10 c -> exists h, captures (rx_re CAPTION_RE) ((u "|=. " ++ c ++ [10]) ++ y) = Some h /\ cap_opt 1 h = Some [] /\ cap_opt 2 h = Some c /\ cap_opt 3 h = Some (10 :: y).
Proof.
  intros Hc. destruct p_shape as (z & Es & Sz). assert (Hn : forallb (in_cls not_nl) c = true).
  { apply forallb_forall. intros x Hx. assert (x <> 10) as H by (intros ->; exact (Hc Hx)). apply N.eqb_neq in H. change (in_cls not_nl x) with (negb ((10 <=? x) && (x <=? 10) || false)). destruct (N.leb_spec 10 x), (N.leb_spec x 10); cbn; try reflexivity. apply N.eqb_neq in H. lia. }
  replace ((u "|=. " ++ c ++ [10]) ++ y) with (124 :: 61 :: 46 :: 32 :: c ++ 10 :: y) by (change (u "|=. ") with [124; 61; 46; 32]; rewrite <- !app_assoc; reflexivity).
  assert (exists b, match_at (rx_re CAPTION_RE) [] (124 :: 61 :: 46 :: 32 :: c ++ 10 :: y) = Some (mk_mst b [] [(3%nat, (10 :: y, [])); (2%nat, (c ++ 10 :: y, 10 :: y)); (1%nat, (46 :: 32 :: c ++ 10 :: y, 46 :: 32 :: c ++ 10 :: y))])) as (b & E).
  { eexists. unfold match_at. rewrite Es, m_seq, m_assert. cbn [assert_holds is_empty]. rewrite m_seq, m_cls. change (in_cls bar 124) with true. cbv iota. rewrite m_seq, m_cls, in_one, N.eqb_refl. rewrite m_seq, m_group, (m_skip z) by exact Sz. cbn [m_before m_after m_caps].
    rewrite m_seq, m_cls, in_one, N.eqb_refl, m_seq, m_cls, in_one, N.eqb_refl, m_seq, m_group. apply m_star_greedy; [exact Hn|reflexivity|]. cbn [m_before m_after m_caps]. rewrite m_group. 
    rewrite <- (app_nil_r (10 :: y)) at 1. apply (m_star_greedy any_cls _ _ (10 :: y) _ [] _); [apply all_any|exact I|]. cbn [m_before m_after m_caps]. reflexivity. }
  apply captures_first in E. eexists. split; [exact E|]. unfold cap_opt, mk_hit_of, cap_text. cbn [h_caps m_caps find_cap Nat.eqb option_map].
  split; [f_equal; apply (cap_str_app [])|]. split; [f_equal; apply cap_str_app|]. f_equal. rewrite <- (app_nil_r (10 :: y)) at 1. apply cap_str_app.
Qed.
Lemma text_ends : never cell_text (RSeq (RCls ws_cls) (RAssert EOT)) = true.
Proof. vm_compute. reflexivity. Qed.
Lemma text_trim t : accepts cell_text t -> trim t = t.
Proof.
  intros H. assert (W : forall c, is_ws c = in_cls ws_cls c) by (intros c; unfold in_cls, ws_cls; cbn; rewrite ?orb_false_r; destruct (is_ws c); reflexivity).
  unfold trim, trim_by. rewrite (trim_start_by_id is_ws t).
  - apply trim_end_by_id. intros r c E. destruct (is_ws c) eqn:Ec; [|reflexivity]. pose proof (never_ok _ _ _ H text_ends) as N. specialize (N r [c] E). unfold match_at in N. rewrite m_seq, m_cls, <- W, Ec, m_assert in N. discriminate.
  - destruct t as [|c t]; [exact I|]. rewrite W. eapply no_start_cls. apply text_no; [right; exact H|left; reflexivity].
Qed.
Lemma k_end before rest : (rest = [] \/ exists r, rest = 10 :: r) -> match_at (rx_re COMPONENTS_RE) before (124 :: rest) = Some (mk_mst (124 :: before) rest []).
Proof.
  intros H. unfold match_at. rewrite k_shape, m_seq, m_cls. change (in_cls bar 124) with true. cbv iota. rewrite m_seq.
  apply (m_star_lazy ws_cls _ _ [] _ rest []); [reflexivity|intros w1 x w2 E; destruct w1; discriminate|]. cbn [rev app]. rewrite m_assert.
  assert (assert_holds EOL (124 :: before) rest = true) as ->; [|reflexivity]. destruct H as [->|(r & ->)]; reflexivity.
Qed.
Lemma k_body p : p <> [] -> no_match (RSeq (RCls bar) (RCls ws_cls)) (p ++ [124]) -> forall before rest last, scan (rx_re COMPONENTS_RE) before (p ++ 124 :: rest) O last = map Lit p ++ scan (rx_re COMPONENTS_RE) (rev p ++ before) (124 :: rest) O false.
Proof.
  intros Hp Nm before rest last.
  apply scan_pass; [exact Hp|]. intros a c b E. destruct (N.eqb_spec c 124) as [->|Hc]; [|apply k_miss; exact Hc].
  assert (exists x z, b ++ [124] = x :: z /\ b ++ 124 :: rest = x :: z ++ rest) as (x & z & E1 & E2).
  { destruct b as [|x b]; [exists 124, []; split; reflexivity|]. exists x, (b ++ [124]). split; [reflexivity|]. cbn [app]. rewrite <- app_assoc. reflexivity. }
  rewrite E2. apply k_inner. specialize (Nm a (124 :: x :: z)). unfold match_at in Nm. rewrite m_seq, m_cls in Nm. change (in_cls bar 124) with true in Nm. cbv iota in Nm. rewrite m_cls in Nm.
  destruct (in_cls ws_cls x); [|reflexivity]. discriminate Nm. rewrite E, <- app_assoc. cbn [app]. rewrite E1. reflexivity.
Qed.
Definition well_barred (p : str) : Prop := p <> [] /\ no_match (RSeq (RCls bar) (RCls ws_cls)) (p ++ [124]).
Lemma k_rows ps : forall p before last acc, (forall x, In x (p :: ps) -> well_barred x) ->
  split_go 1 (scan (rx_re COMPONENTS_RE) before (p ++ 124 :: flat_map line_of ps) O last) acc = Some ((rev acc ++ p) :: map (cons 10) ps ++ [[]]).
Proof.
  induction ps as [|p2 ps IH]; intros p before last acc H; destruct (H p (or_introl eq_refl)) as [Hp Nm].
  - cbn [flat_map map]. rewrite k_body by auto. rewrite split_go_lits. rewrite scan_cons, k_end by (left; reflexivity).
    assert (Eh : h_text (mk_hit_of [124] (mk_mst (124 :: rev p ++ before) [] [])) = [124]) by reflexivity. rewrite Eh. cbn [List.length]. cbn [scan]. 
    cbn [m_after m_before skipn]. cbn [split_go seq map forallb Nat.sub app]. rewrite rev_app_distr, rev_involutive. reflexivity.
  - cbn [flat_map]. unfold line_of at 1. cbn [app]. rewrite <- app_assoc. cbn [app].
    rewrite k_body by auto. rewrite split_go_lits. set (J := p2 ++ 124 :: flat_map line_of ps) in *. rewrite scan_cons, k_end by (right; eexists; reflexivity).
    assert (Eh : h_text (mk_hit_of (124 :: 10 :: J) (mk_mst (124 :: rev p ++ before) (10 :: J) [])) = [124]) by (unfold mk_hit_of; cbn [h_text m_after]; apply (cap_str_app [124])). rewrite Eh.
    cbn [List.length]. cbn [split_go]. cbn [seq map forallb Nat.sub app].
    cbn [m_after]. rewrite scan_cons, k_miss by discriminate. cbn [split_go]. unfold J at 1. rewrite IH by (intros x Hx; apply H; right; exact Hx). cbn [rev app map]. rewrite rev_app_distr, rev_involutive. reflexivity.
Qed.
Lemma marks_no_bar c : ~ In 124 (marks_of c).
Proof.
  destruct (items_of c) eqn:E; [unfold marks_of; rewrite E; intros []|]. rewrite marks_text by (rewrite E; discriminate).
  assert (D : forall n, ~ In 124 (dec n)). { intros n F. destruct (dec_spec n) as (_ & Hd & _). rewrite forallb_forall in Hd. specialize (Hd _ F). discriminate. }
  rewrite !in_app_iff. intros F. repeat destruct F as [F|F].
  - destruct (c_head c); cbn [In] in F; intuition discriminate.
  - destruct (c_col c) as [n|]; [|destruct F]. destruct F as [F|F]; [discriminate|exact (D n F)].
  - destruct (c_row c) as [n|]; [|destruct F]. destruct F as [F|F]; [discriminate|exact (D n F)].
  - destruct (c_valign c) as [[]|]; cbn [opt_text SpecAtts.valign_mark] in F; [change (In 124 [94]) in F|change (In 124 [45]) in F|change (In 124 [126]) in F|]; cbn [In] in F; intuition discriminate.
  - destruct (c_halign c) as [[]|]; cbn [opt_text SpecAtts.halign_mark] in F; [change (In 124 [60]) in F|change (In 124 [62]) in F|change (In 124 [61]) in F|change (In 124 [60; 62]) in F|]; cbn [In] in F; intuition discriminate.
  - discriminate.
  - discriminate.
  - destruct F.
Qed.
Lemma split_cells r : (forall c, In c r -> proper_cell false c) -> forall x, ~ In 124 x -> split_char 124 (x ++ row_body r) = x :: map cell_source r.
Proof.
  assert (N : forall x y, ~ In 124 x -> split_char 124 (x ++ y) = match split_char 124 y with p :: ps => (x ++ p) :: ps | [] => [x] end).
  { intros x y. induction x as [|c x IH]; intros H; [cbn [app]; destruct (split_char 124 y) eqn:E; [destruct (split_char_nonempty 124 y E)|reflexivity]|]. cbn [app split_char]. destruct (N.eqb_spec c 124) as [->|]; [exfalso; apply H; left; reflexivity|].
    rewrite IH by (intros F; apply H; right; exact F). destruct (split_char 124 y); reflexivity. }
  induction r as [|c r IH]; intros Hp x Hx.
  - unfold row_body. cbn [flat_map map]. rewrite N by exact Hx. cbn [split_char]. rewrite app_nil_r. reflexivity.
  - rewrite N by exact Hx. unfold row_body. cbn [flat_map map app split_char]. rewrite N.eqb_refl. fold (row_body r). rewrite IH; [rewrite app_nil_r; reflexivity|intros c2 H2; apply Hp; right; exact H2|].
    unfold cell_source. intros F. apply in_app_or in F as [F|F]; [exact (marks_no_bar c F)|]. revert F. apply no_match_ch, text_no; [apply (Hp c); left; reflexivity|cbn [In map app]; tauto].
Qed.
Lemma body_head r : r <> [] -> exists y, row_body r = 124 :: y.
Proof. destruct r as [|c r]; [congruence|]. intros _. eexists. unfold row_body. cbn [flat_map app]. reflexivity. Qed.
Lemma tr_tag J : nl ++ tab ++ tab ++ generate_tag (u "tr") (Some (J ++ nl ++ tab ++ tab)) [] = u "
		<tr>" ++ J ++ u "
		</tr>".
Proof.
  change (generate_tag (u "tr") (Some (J ++ nl ++ tab ++ tab)) []) with (u "<tr>" ++ (J ++ nl ++ tab ++ tab) ++ u "</tr>"). rewrite <- (app_assoc J). reflexivity.
Qed.
Lemma table_tag J : tab ++ generate_tag (u "table") (Some (J ++ nl ++ tab)) [] ++ nl ++ nl = (u "	<table>" ++ J ++ u "
	</table>") ++ nl ++ nl.
Proof.
  change (generate_tag (u "table") (Some (J ++ nl ++ tab)) []) with (u "<table>" ++ (J ++ nl ++ tab) ++ u "</table>"). rewrite <- (app_assoc J). rewrite <- !app_assoc. reflexivity.
Qed.
Section Rows.
Variables (T : textile) (graf : str -> M str).
Hypothesis not_lite : t_lite T = false.
Lemma cell_done c : proper_cell false c -> leaves T (table_cell T graf (cell_source c)) (cell_html c).
Proof.
  intros [Hp _]. set (t := c_text c) in *. assert (R : forall r, In r [HEADING_RE; CMTCH_RE; RC_PATTERN; LIST_RE] -> no_match (rx_re r) t).
  { intros r Hr. apply text_no; [exact Hp|]. right. apply in_or_app. right. apply in_map. exact Hr. }
  assert (H10 : ~ In 10 t) by (apply no_match_ch, text_no; [exact Hp|cbn [In map app]; tauto]).
  unfold table_cell, cell_source. fold t. rewrite not_lite. destruct (a_hit t Hp) as (ha & Ea & Ea1 & Ea2).
  assert (Tail : leaves T (bind (match captures (rx_re CELL_A_PATTERN_RE) t with
     | Some a => bind (capx 1 a) (fun space => bind (capx 2 a) (fun c => bind (redcloth_list T graf c) (fun c => bind (textile_lists T c) (fun c => ret (space ++ c)))))
     | None => ret [] end) (fun cell => do_tag_br T (if c_head c then u "th" else u "td") (nl ++ tab ++ tab ++ tab ++ generate_tag (if c_head c then u "th" else u "td") (Some cell) (cell_attrs c)))) (cell_html c)).
  { rewrite Ea. unfold capx. unfold cap_opt in Ea1, Ea2. rewrite Ea1, Ea2. cbn [of_opt]. eapply leaves_bind with (x := t); [|apply cell_tag; exact H10].
    eapply leaves_bind; [apply leaves_ret|]. eapply leaves_bind; [apply leaves_ret|]. eapply leaves_bind; [apply leaves_replace, R; cbn [In]; tauto|]. eapply leaves_bind; [apply leaves_replace, R; cbn [In]; tauto|]. apply leaves_ret. }
  assert (items_of c = [] \/ items_of c <> []) as [En|Hn] by (destruct (items_of c); [left; reflexivity|right; discriminate]).
  - unfold marks_of. rewrite En. cbn [app]. rewrite is_match_no_match, captures_no_match by (apply R; cbn [In]; tauto). eapply leaves_bind with (x := (t, [])); [apply leaves_ret|]. cbv beta iota.
    assert (cell_attrs c = [] /\ c_head c = false) as [E1 E2]; [|rewrite E1, E2 in Tail; exact Tail].
    destruct c as [h col row v a tx]. unfold items_of in En. cbn [c_head c_col c_row c_valign c_halign] in *. destruct h, col, row, v, a; try discriminate En. split; reflexivity.
  - rewrite head_is by exact Hn. destruct (c_hit c t Hn) as (hc & Ec & Ec1 & Ec2). rewrite Ec. unfold capx at 1 2. unfold cap_opt in Ec1, Ec2. rewrite Ec1, Ec2. cbn [of_opt].
    eapply leaves_bind with (x := (t, cell_attrs c)); [|exact Tail]. eapply leaves_bind; [apply leaves_ret|]. eapply leaves_bind; [apply leaves_ret|].
    intros s Hs. destruct (marks_attrs (t_restricted T) c s Hn) as (a & E1 & E2). unfold bind at 1. rewrite E1, E2. exact (leaves_ret T (t, cell_attrs c) s Hs).
Qed.
Lemma cells_done r : (forall c, In c r -> proper_cell false c) -> leaves T (mapM (table_cell T graf) (map cell_source r)) (map cell_html r).
Proof.
  induction r as [|c r IH]; intros H; cbn [map mapM]; [apply leaves_ret|]. eapply leaves_bind; [apply cell_done, H; left; reflexivity|]. eapply leaves_bind; [apply IH; intros c2 H2; apply H; right; exact H2|]. apply leaves_ret.
Qed.
(** *** A piece: a row, or the line of a group and its first row *)
Definition add_row (acc : table_acc) (line : str) : table_acc :=
  match ta_rgrp acc with
  | Some (tag, ba, rows) => mk_ta (ta_caption acc) (ta_colgroup acc) (ta_content acc) (Some (tag, ba, rows ++ [line])) (ta_groups acc)
  | None => mk_ta (ta_caption acc) (ta_colgroup acc) (ta_content acc ++ [line]) None (ta_groups acc)
  end.
Definition closed (acc : table_acc) : list str := match ta_rgrp acc with Some sec => ta_groups acc ++ [nl ++ tab ++ section_process sec] | None => ta_groups acc end.
Definition open_group (acc : table_acc) (g : group) : table_acc := mk_ta (ta_caption acc) (ta_colgroup acc) (ta_content acc) (Some (group_name g, ba_default, [])) (closed acc).
Inductive pc := PRow (r : list cell) | PGroup (g : group) (r : list cell).
Definition pc_row (p : pc) : list cell := match p with PRow r => r | PGroup _ r => r end.
Definition pc_text (p : pc) : str := match p with PRow r => row_body r | PGroup g r => [124; group_mark g; 46; 10] ++ row_body r end.
Definition pc_apply (acc : table_acc) (p : pc) : table_acc := match p with PRow r => add_row acc (row_html r) | PGroup g r => add_row (open_group acc g) (row_html r) end.
Definition after_group (x : table_acc * str) : M table_acc := let '(acc, row) := x in
  '(row, row_atts) <- match captures (rx_re RMTCH_RE) (trim_start row) with
                      | Some m => ratts <- capx 1 m ;; r <- capx 2 m ;;
                                  ba <- block_attributes_parse ratts ElTr true (t_restricted T) ;;
                                  ret (r, ba_html_attrs ba)
                      | None => ret (row, [])
                      end ;;
  cells <- mapM (table_cell T graf) (tl (split_char 124 row)) ;;
  ret (add_row acc (row_process cells row_atts)).
Definition after_caption (acc : table_acc) (row : str) : M table_acc :=
  '(cg, row) <- row_colgroup T row ;;
  let acc := mk_ta (ta_caption acc) (ta_colgroup acc ++ cg) (ta_content acc) (ta_rgrp acc) (ta_groups acc) in
  match row with
  | None => ret acc
  | Some row => bind (row_group T acc row) after_group
  end.
Lemma row_steps first acc row : table_row T graf first acc row =
  bind (row_caption T first (trim_start row)) (fun x => match x with (caption, row) => let acc := match caption with Some c => mk_ta c (ta_colgroup acc) (ta_content acc) (ta_rgrp acc) (ta_groups acc) | None => acc end in
    match row with None => ret acc | Some row => after_caption acc row end end).
Proof. reflexivity. Qed.
Lemma group_done acc r : proper_row false r -> leaves T (after_group (acc, row_body r)) (add_row acc (row_html r)).
Proof.
  intros Hr. destruct (body_head r (proj1 Hr)) as (y & Ey). unfold after_group. eapply leaves_bind with (x := (row_body r, [])).
  { rewrite captures_no_match; [apply leaves_ret|]. rewrite Ey. change (trim_start (124 :: y)) with (124 :: y). rewrite <- Ey. eapply (never_in body_a [grp_re; rx_re RMTCH_RE]); [|apply (body_run true 240); [exact (proj1 Hr)|exact (proj2 Hr)|left; reflexivity]|right; left; reflexivity].
    pose proof body_inert as B. do 3 (apply andb_prop in B as [B _]). exact B. }
  cbv beta iota. pose proof (split_cells r (proj2 Hr) [] (fun F => F)) as Es. cbn [app] in Es. rewrite Es. cbn [tl].
  eapply leaves_bind; [apply cells_done, (proj2 Hr)|].
  assert (row_process (map cell_html r) [] = row_html r) as ->; [|apply leaves_ret]. unfold row_process, row_html. rewrite flat_map_concat_map. unfold str. apply tr_tag.
Qed.
Lemma pc_done acc p : proper_row false (pc_row p) -> no_match (rx_re COLGROUP_RE) (pc_text p) -> leaves T (after_caption acc (pc_text p)) (pc_apply acc p).
Proof.
  intros Hr Hc. unfold after_caption. eapply leaves_bind with (x := ([], Some (pc_text p))).
  { unfold row_colgroup. rewrite captures_no_match by exact Hc. apply leaves_ret. }
  cbv beta iota zeta. assert (mk_ta (ta_caption acc) (ta_colgroup acc ++ []) (ta_content acc) (ta_rgrp acc) (ta_groups acc) = acc) as -> by (destruct acc; cbn; rewrite app_nil_r; reflexivity).
  destruct (body_head _ (proj1 Hr)) as (y & Ey). destruct p as [r|g r]; cbn [pc_row pc_text pc_apply] in *.
  - eapply leaves_bind with (x := (acc, row_body r)); [|apply group_done; exact Hr]. unfold row_group. assert (trim_start (row_body r) = row_body r) as -> by (rewrite Ey; reflexivity).
    destruct (g_hit (row_body r)) as (h & Eh & Eh2 & Eh4).
    { eapply (never_in body_a [grp_re; rx_re RMTCH_RE]); [|apply (body_run true 240); [exact (proj1 Hr)|exact (proj2 Hr)|left; reflexivity]|left; reflexivity]. pose proof body_inert as B. do 3 (apply andb_prop in B as [B _]). exact B. }
    rewrite Eh, Eh2. eapply leaves_bind; [apply leaves_ret|]. unfold capx. unfold cap_opt in Eh4. rewrite Eh4. cbn [of_opt]. eapply leaves_bind; [apply leaves_ret|]. apply leaves_ret.
  - eapply leaves_bind with (x := (open_group acc g, row_body r)); [|apply group_done; exact Hr]. unfold row_group. rewrite Ey. assert (trim_start ([124; group_mark g; 46; 10] ++ 124 :: y) = [124; group_mark g; 46; 10] ++ 124 :: y) as -> by reflexivity.
    destruct (g_group g 124 y eq_refl) as (h & Eh & Eh2 & Eh3 & Eh4). rewrite Eh, Eh2, Eh3. eapply leaves_bind with (x := open_group acc g).
    + cbv zeta. eapply leaves_bind with (x := group_name g); [destruct g; apply leaves_ret|]. eapply leaves_bind; [apply leaves_pure; intros s; apply attrs_none|]. apply leaves_ret.
    + unfold capx. unfold cap_opt in Eh4. rewrite Eh4. cbn [of_opt]. eapply leaves_bind; [apply leaves_ret|]. apply leaves_ret.
Qed.
Definition fine_pc (p : pc) : Prop := proper_row false (pc_row p) /\ Suf piece_a 240 (pc_text p).
Lemma pc_inert p : fine_pc p -> no_match (rx_re COLGROUP_RE) (pc_text p).
Proof. intros [_ H]. eapply never_ok; [exact H|]. pose proof body_inert as B. do 2 (apply andb_prop in B as [B _]). apply andb_prop in B as [_ B]. exact B. Qed.
Lemma pc_head p : proper_row false (pc_row p) -> exists y, pc_text p = 124 :: y.
Proof. intros Hr. destruct p as [r|g r]; [apply body_head, (proj1 Hr)|eexists; reflexivity]. Qed.
Lemma pcs_done ps : (forall p, In p ps -> fine_pc p) -> forall acc, leaves T (table_rows T graf false acc (map (cons 10) (map pc_text ps))) (fold_left pc_apply ps acc).
Proof.
  induction ps as [|p ps IH]; intros H acc; cbn [map table_rows fold_left]; [apply leaves_ret|]. pose proof (H p (or_introl eq_refl)) as Hp. destruct (pc_head p (proj1 Hp)) as (y & Ey).
  eapply leaves_bind; [|apply IH; intros x Hx; apply H; right; exact Hx]. rewrite row_steps. assert (trim_start (10 :: pc_text p) = pc_text p) as -> by (rewrite Ey; reflexivity).
  unfold row_caption. eapply leaves_bind; [apply leaves_ret|]. cbv beta iota zeta. apply pc_done; [exact (proj1 Hp)|apply pc_inert; exact Hp].
Qed.
Lemma caption_tag c : nl ++ tab ++ generate_tag (u "caption") (Some c) (ba_html_attrs ba_default) ++ nl = u "
	<caption>" ++ c ++ u "</caption>
".
Proof. change (generate_tag (u "caption") (Some c) (ba_html_attrs ba_default)) with (u "<caption>" ++ c ++ u "</caption>"). rewrite <- !app_assoc. reflexivity. Qed.
Lemma first_done t p : fine_pc p -> match t_caption t with Some c => accepts cell_text c | None => Suf piece_a 246 (pc_text p) end ->
  leaves T (table_row T graf true (mk_ta [] [] [] None []) (opt_text (fun c => u "|=. " ++ c ++ [10]) (t_caption t) ++ pc_text p)) (pc_apply (mk_ta (caption_html t) [] [] None []) p).
Proof.
  intros Hp Hc. destruct (pc_head p (proj1 Hp)) as (y & Ey). rewrite row_steps. unfold row_caption, caption_html. destruct (t_caption t) as [c|]; cbn [opt_text].
  - assert (trim_start ((u "|=. " ++ c ++ [10]) ++ pc_text p) = (u "|=. " ++ c ++ [10]) ++ pc_text p) as -> by reflexivity.
    assert (H10 : ~ In 10 c) by (apply no_match_ch, text_no; [right; exact Hc|cbn [In map app]; tauto]).
    destruct (p_hit c (pc_text p) H10) as (h & Eh & E1 & E2 & E3). rewrite Eh. unfold capx. unfold cap_opt in E1, E2, E3. rewrite E1, E2, E3. cbn [of_opt].
    eapply leaves_bind with (x := (Some (u "
	<caption>" ++ c ++ u "</caption>
"), Some (pc_text p))).
    + eapply leaves_bind; [apply leaves_ret|]. eapply leaves_bind; [apply leaves_ret|]. eapply leaves_bind with (x := tab ++ generate_tag (u "caption") (Some c) (ba_html_attrs ba_default) ++ nl).
      * unfold process_caption. eapply leaves_bind; [apply leaves_pure; intros s; apply attrs_none|]. rewrite text_trim by exact Hc. apply leaves_ret.
      * eapply leaves_bind; [apply leaves_ret|]. cbv zeta. assert (trim_start (10 :: pc_text p) = pc_text p) as -> by (rewrite Ey; reflexivity). rewrite Ey at 1. cbn [is_empty]. rewrite caption_tag. apply leaves_ret.
    + cbv beta iota zeta. cbn [ta_colgroup ta_content ta_rgrp ta_groups]. apply pc_done; [exact (proj1 Hp)|apply pc_inert; exact Hp].
  - cbn [app]. assert (trim_start (pc_text p) = pc_text p) as -> by (rewrite Ey; reflexivity). rewrite captures_no_match.
    + eapply leaves_bind; [apply leaves_ret|]. cbv beta iota zeta. apply pc_done; [exact (proj1 Hp)|apply pc_inert; exact Hp].
    + eapply (never_ok first_a); [rewrite <- (app_nil_r (pc_text p)); apply (ProofParas.tail_ok piece_a 246 (pc_text p) Hc first_a); [apply incl_refl|intros f F; apply SufNil; exact F]|]. pose proof body_inert as B. apply andb_prop in B as [_ B]. exact B.
Qed.
(** *** The result of all pieces *)
Definition pcs (t : tableau) : list pc := map PRow (t_loose t) ++ flat_map (fun g => match snd g with [] => [] | r :: rs => PGroup (fst g) r :: map PRow rs end) (t_groups t).
Lemma pcs_text t : raw_pieces t = map pc_text (pcs t).
Proof.
  unfold raw_pieces, pcs. rewrite map_app, map_map. f_equal. induction (t_groups t) as [|[g rs] l IH]; [reflexivity|]. cbn [flat_map]. rewrite map_app, IH. f_equal. unfold group_pieces. cbn [fst snd]. destruct rs as [|r rs]; [reflexivity|]. cbn [map pc_text]. rewrite map_map. reflexivity.
Qed.
Lemma rows_into rs : forall acc tag ba rows, ta_rgrp acc = Some (tag, ba, rows) -> fold_left pc_apply (map PRow rs) acc = mk_ta (ta_caption acc) (ta_colgroup acc) (ta_content acc) (Some (tag, ba, rows ++ map row_html rs)) (ta_groups acc).
Proof.
  induction rs as [|r rs IH]; intros acc tag ba rows H; cbn [map fold_left]; [rewrite app_nil_r, <- H; destruct acc; reflexivity|]. cbn [pc_apply]. unfold add_row. rewrite H. erewrite IH by reflexivity. cbn [ta_caption ta_colgroup ta_content ta_groups]. rewrite <- app_assoc. reflexivity.
Qed.
Lemma rows_loose rs : forall acc, ta_rgrp acc = None -> fold_left pc_apply (map PRow rs) acc = mk_ta (ta_caption acc) (ta_colgroup acc) (ta_content acc ++ map row_html rs) None (ta_groups acc).
Proof.
  induction rs as [|r rs IH]; intros acc H; cbn [map fold_left]; [rewrite app_nil_r, <- H; destruct acc; reflexivity|]. cbn [pc_apply]. unfold add_row. rewrite H. rewrite IH by reflexivity. cbn [ta_caption ta_colgroup ta_content ta_groups]. rewrite <- app_assoc. reflexivity.
Qed.
Lemma group_tag g J : nl ++ tab ++ section_process (group_name g, ba_default, J) = u "
	<" ++ group_name g ++ u ">" ++ List.concat J ++ u "
	</" ++ group_name g ++ u ">".
Proof.
  unfold section_process. assert (generate_tag (group_name g) (Some (List.concat J ++ nl ++ tab)) (ba_html_attrs ba_default) = u "<" ++ group_name g ++ u ">" ++ (List.concat J ++ nl ++ tab) ++ u "</" ++ group_name g ++ u ">") as -> by (destruct g; reflexivity).
  rewrite <- (app_assoc (List.concat J)). destruct g; reflexivity.
Qed.
Lemma groups_into gs : (forall g, In g gs -> snd g <> []) -> forall acc, let acc2 := fold_left pc_apply (flat_map (fun g => match snd g with [] => [] | r :: rs => PGroup (fst g) r :: map PRow rs end) gs) acc in
  ta_caption acc2 = ta_caption acc /\ ta_colgroup acc2 = ta_colgroup acc /\ ta_content acc2 = ta_content acc /\ closed acc2 = closed acc ++ map group_html gs.
Proof.
  induction gs as [|[g rs] gs IH]; intros H acc; [cbn; rewrite app_nil_r; auto|]. cbv zeta. cbn [flat_map fst snd]. rewrite fold_left_app. destruct rs as [|r rs]; [destruct (H (g, []) (or_introl eq_refl) eq_refl)|].
  cbn [fold_left pc_apply]. assert (fold_left pc_apply (map PRow rs) (add_row (open_group acc g) (row_html r)) = mk_ta (ta_caption acc) (ta_colgroup acc) (ta_content acc) (Some (group_name g, ba_default, ([] ++ [row_html r]) ++ map row_html rs)) (closed acc)) as -> by (erewrite rows_into by reflexivity; reflexivity).
  destruct (IH (fun x Hx => H x (or_intror Hx)) (mk_ta (ta_caption acc) (ta_colgroup acc) (ta_content acc) (Some (group_name g, ba_default, ([] ++ [row_html r]) ++ map row_html rs)) (closed acc))) as (E1 & E2 & E3 & E4). rewrite E1, E2, E3, E4. repeat (split; [reflexivity|]).
  unfold closed at 1. cbn [ta_rgrp ta_groups map]. rewrite <- app_assoc. cbn [app]. f_equal. f_equal. rewrite group_tag. unfold group_html. cbn [fst snd flat_map List.concat]. rewrite <- flat_map_concat_map. reflexivity.
Qed.
Lemma pcs_fine t : proper_table false t -> forall p, In p (pcs t) -> fine_pc p.
Proof.
  intros (_ & Hr & _ & _) p Hp. split.
  - apply Hr. unfold pcs in Hp. unfold all_rows. apply in_app_or in Hp as [Hp|Hp]; apply in_or_app; [left; apply in_map_iff in Hp as (r & <- & Hp); exact Hp|right].
    apply in_flat_map in Hp as ([g rs] & Hg & Hp). apply in_flat_map. exists (g, rs). split; [exact Hg|]. cbn [fst snd] in *. destruct rs as [|r rs]; [destruct Hp|]. destruct Hp as [<-|Hp]; [left; reflexivity|]. apply in_map_iff in Hp as (x & <- & Hp). right. exact Hp.
  - apply (piece_run true t); [exact Hr|]. rewrite pcs_text. apply in_map. exact Hp.
Qed.
Lemma process_done t : proper_table false t -> leaves T (process_table T graf [] (table_source t) None) (table_html t ++ nl ++ nl).
Proof.
  intros Ht. destruct Ht as (Hn & Hr & Hg & Hc) eqn:Et. clear Et. destruct (source_pieces t Hn Hg) as (p0 & ps0 & Ep & Es). pose proof (pcs_fine t Ht) as F. pose proof (pcs_text t) as Et. rewrite Ep in Et.
  destruct (pcs t) as [|p ps] eqn:Epcs; [discriminate|]. cbn [map] in Et. injection Et as -> ->.
  set (w := opt_text (fun c => u "|=. " ++ c ++ [10]) (t_caption t) ++ pc_text p) in *. 
  assert (First : match t_caption t with Some c => accepts cell_text c | None => Suf piece_a 246 (pc_text p) end).
  { destruct (t_caption t) eqn:Ec; [exact Hc|]. apply (first_piece true t _ (map pc_text ps)); [exact Ht|exact Ec|exact Ep]. }
  assert (Hw : well_barred w).
  { destruct (pc_head p (proj1 (F p (or_introl eq_refl)))) as (y & Ey). split; [unfold w; rewrite Ey; intros E0; apply app_eq_nil in E0 as [_ E0]; discriminate|]. unfold w. destruct (t_caption t) as [c|]; cbn [opt_text].
    - apply captioned_bars; [exact First|exact (proj2 (F p (or_introl eq_refl)))].
    - cbn [app]. eapply piece_bars; [exact First|right; left; reflexivity]. }
  unfold process_table. eapply leaves_bind; [apply leaves_pure; intros s; apply attrs_none|]. cbv zeta. rewrite Es.
  eapply leaves_bind with (x := w :: map (cons 10) (map pc_text ps) ++ [[]]).
  { apply leaves_pure. intros s. unfold splitM, split_rx, segs. change (rx_len COMPONENTS_RE) with 1%nat. rewrite k_rows; [reflexivity|]. intros x [<-|Hx]; [exact Hw|]. apply in_map_iff in Hx as (q & <- & Hq).
    destruct (F q (or_intror Hq)) as [F1 F2]. destruct (pc_head q F1) as (y & Ey). split; [rewrite Ey; discriminate|]. eapply piece_bars; [exact F2|left; reflexivity]. }
  assert (filter (fun x => negb (is_empty x)) (w :: map (cons 10) (map pc_text ps) ++ [[]]) = w :: map (cons 10) (map pc_text ps)) as ->.
  { cbn [filter]. destruct Hw as [Hw _]. destruct w as [|z w]; [congruence|]. cbn [is_empty negb]. f_equal. rewrite filter_app. cbn [filter is_empty negb]. rewrite app_nil_r. generalize (map pc_text ps). intros l. induction l as [|x l IH]; [reflexivity|]. cbn [map filter is_empty negb]. rewrite IH. reflexivity. }
  set (start := mk_ta (caption_html t) [] [] None []).
  eapply leaves_bind with (x := fold_left pc_apply (pcs t) start).
  { rewrite Epcs. cbn [table_rows fold_left]. eapply leaves_bind; [apply first_done; [apply F; left; reflexivity|exact First]|]. apply pcs_done. intros q Hq. apply F. right. exact Hq. }
  clear Epcs. unfold pcs. rewrite fold_left_app. unfold start. rewrite rows_loose by reflexivity. cbn [ta_caption ta_colgroup ta_content ta_groups app].
  destruct (groups_into (t_groups t) Hg (mk_ta (caption_html t) [] (map row_html (t_loose t)) None [])) as (E1 & E2 & E3 & E4). set (fin := fold_left pc_apply _ _) in *. rewrite E1, E2, E3. change (match ta_rgrp fin with Some sec => _ | None => _ end) with (closed fin).
  match goal with |- leaves T (ret ?a) ?b => assert (a = b) as ->; [|apply leaves_ret] end.
  rewrite E4. unfold table_html. rewrite !flat_map_concat_map. unfold closed at 1. cbn [ta_caption ta_colgroup ta_content ta_rgrp ta_groups app].
  set (A := caption_html t). set (B := List.concat (map group_html (t_groups t))). set (C := List.concat (map row_html (t_loose t))).
  replace (A ++ B ++ C ++ nl ++ tab) with ((A ++ B ++ C) ++ nl ++ tab) by (rewrite <- !app_assoc; reflexivity). etransitivity; [apply (table_tag (A ++ B ++ C))|]. f_equal. rewrite <- !app_assoc. reflexivity.
Qed.
(** ** The whole table *)
Lemma t_shape : exists a x y, rx_re TABLE_RE = RSeq (RAssert SOL) (RSeq a (RSeq (RAssert SOL) (RSeq (RGroup 3 (RSeq x (RSeq y (RSeq (RAlt (RCls (one 46)) REps) (RSeq (RAlt (RCls (one 32)) REps) (RSeq (RCls bar) (RSeq (RStar true (RCls any_cls)) (RCls bar))))))))
  (RSeq (RStar true (RCls ws_cls)) (RSeq (RCls (one 10)) (RCls (one 10))))))) /\ skips a 124 = true /\ skips x 124 = true /\ skips y 124 = true.
Proof. eexists _, _, _. split; [reflexivity|]. repeat split; vm_compute; reflexivity. Qed.
Lemma t_hit w : exists h, captures (rx_re TABLE_RE) (124 :: w ++ [124] ++ nl ++ nl) = Some h /\ cap_opt 1 h = None /\ cap_opt 2 h = None /\ cap_opt 3 h = Some (124 :: w ++ [124]).
Proof.
  destruct t_shape as (a & x & y & Es & Sa & Sx & Sy).
  assert (exists b, match_at (rx_re TABLE_RE) [] (124 :: w ++ [124] ++ nl ++ nl) = Some (mk_mst b [] [(3%nat, (124 :: w ++ [124] ++ nl ++ nl, nl ++ nl))])) as (b & E).
  { eexists. unfold match_at. rewrite Es, m_seq, m_assert. cbn [assert_holds is_empty]. rewrite m_seq, (m_skip a) by exact Sa. rewrite m_seq, m_assert. cbn [assert_holds is_empty]. rewrite m_seq, m_group.
    rewrite m_seq, (m_skip x) by exact Sx. rewrite m_seq, (m_skip y) by exact Sy. rewrite m_seq, m_skip by reflexivity. rewrite m_seq, m_skip by reflexivity.
    rewrite m_seq, m_cls. change (in_cls bar 124) with true. cbv iota. rewrite m_seq. replace (w ++ [124] ++ nl ++ nl) with (w ++ ([124] ++ nl ++ nl) ++ []) at 1 by (rewrite app_nil_r; reflexivity). apply m_star_back.
    - apply all_any.
    - exact I.
    - cbn [m_before m_after m_caps]. rewrite app_nil_r. change ([124] ++ nl ++ nl) with [124; 10; 10]. rewrite m_cls. change (in_cls bar 124) with true. cbv iota. cbn [m_before m_after m_caps]. rewrite m_seq.
      apply (m_star_back ws_cls _ _ [10; 10] [] _ [] _); [reflexivity|exact I|reflexivity|].
      intros v1 v2 z Ez. rewrite app_nil_r. assert (v2 = [] \/ v2 = [10]) as Hv.
      { destruct v1 as [|z1 v1]; cbn [app] in Ez; injection Ez as Ez1 Ez2; [right; auto|]. destruct v1 as [|z2 v1]; cbn [app] in Ez2; injection Ez2 as Ez3 Ez4; [left; auto|]. destruct v1; discriminate. }
      destruct Hv as [->| ->]; reflexivity.
    - intros v1 v2 z Ez. rewrite app_nil_r. change ([124] ++ nl ++ nl) with [124; 10; 10] in Ez. destruct v2 as [|z2 v2]; [apply m_cls_nil|]. rewrite m_cls. unfold bar. rewrite in_one. assert (z2 <> 124) as Hz; [|apply N.eqb_neq in Hz; rewrite Hz; reflexivity].
      intros ->. assert (In 124 [10; 10]) as F; [|cbn [In] in F; intuition discriminate]. destruct v1 as [|z1 v1]; cbn [app] in Ez; injection Ez as Ez1 Ez2; [discriminate|]. rewrite Ez2, in_app_iff. right. left. reflexivity. }
  apply captures_first in E. eexists. split; [exact E|]. unfold cap_opt, mk_hit_of, cap_text. cbn [h_caps m_caps find_cap Nat.eqb option_map]. split; [reflexivity|]. split; [reflexivity|].
  f_equal. replace (124 :: w ++ [124] ++ nl ++ nl) with ((124 :: w ++ [124]) ++ nl ++ nl) by (cbn [app]; rewrite <- app_assoc; reflexivity). apply cap_str_app.
Qed.
Lemma source_ends t : proper_table false t -> exists w, table_source t = 124 :: w ++ [124].
Proof.
  intros Ht. pose proof Ht as (Hn & Hr & Hg & _). destruct (source_pieces t Hn Hg) as (p & ps & Ep & Es). 
  assert (exists y, p = 124 :: y) as (y & Ey). { pose proof (pcs_text t) as E. rewrite Ep in E. pose proof (pcs_fine t Ht) as F. destruct (pcs t) as [|q l]; [discriminate|]. cbn [map] in E. injection E as -> _. apply pc_head. apply (F q). left. reflexivity. }
  assert (exists y2, opt_text (fun c => u "|=. " ++ c ++ [10]) (t_caption t) ++ p = 124 :: y2) as (y2 & Ey2) by (rewrite Ey; destruct (t_caption t) as [c|]; cbn [opt_text]; eexists; [change (u "|=. ") with [124; 61; 46; 32]|]; reflexivity).
  rewrite Es, Ey2. cbn [app]. assert (exists v, y2 ++ 124 :: flat_map line_of ps = v ++ [124]) as (v & Ev); [|exists v; rewrite Ev; reflexivity].
  clear. revert y2. induction ps as [|p ps IH]; intros y; [exists y; reflexivity|]. cbn [flat_map]. unfold line_of at 1. destruct (IH (y ++ 124 :: 10 :: p)) as (v & Ev). exists v. rewrite <- Ev. rewrite <- !app_assoc. cbn [app]. rewrite <- app_assoc. reflexivity.
Qed.
Lemma table_done t : proper_table false t -> leaves T (table T graf (table_source t)) (table_html t ++ nl ++ nl).
Proof.
  intros H. unfold table. destruct (source_ends t H) as (w & Ew). destruct (t_hit w) as (h & Eh & E1 & E2 & E3).
  assert (table_source t ++ nl ++ nl = 124 :: w ++ [124] ++ nl ++ nl) as -> by (rewrite Ew; cbn [app]; rewrite <- app_assoc; reflexivity). rewrite Eh. unfold cap_or. rewrite E1, E2. unfold capx. unfold cap_opt in E3. rewrite E3. cbn [of_opt]. rewrite <- Ew.
  eapply leaves_bind; [apply leaves_ret|]. apply process_done. exact H.
Qed.
End Rows.
