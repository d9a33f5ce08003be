(** Symbolic matching: block signatures, line breaks in elements, separation of blocks. *)
From Verif Require Import Str Unicode Regex RegexParse RegexSnips RegexTheory RegexAuto RegexGroups Lib ModelBase ModelHtml ModelUrl
  ModelAttrs ModelInline ModelParser SpecRegex ProofRegex SpecParse ProofParse ProofLinks ProofDoc SpecPlain SpecNewlines ProofNewlines ProofParas.
#[local] Arguments u : simpl never.

Definition any_cls : cls := mk_cls true [].
Lemma in_any_cls c : in_cls any_cls c = true. Proof. reflexivity. Qed.
Lemma all_any w : forallb (in_cls any_cls) w = true. Proof. induction w; auto. Qed.
(** A greedy loop gives back until the rest matches. *)
Lemma m_star_back c k y : forall v w before rest cs,
  forallb (in_cls c) (w ++ v) = true -> stops c rest ->
  k (mk_mst (rev w ++ before) (v ++ rest) cs) = Some y ->
  (forall v1 v2 x, v = (v1 ++ [x]) ++ v2 -> k (mk_mst (rev (v1 ++ [x]) ++ rev w ++ before) (v2 ++ rest) cs) = None) ->
  m (RStar true (RCls c)) (mk_mst before (w ++ v ++ rest) cs) k = Some y.
Proof.
  intros v w before rest cs Hw Hr Hk Hv. rewrite m_star. cbn [m_after].
  assert (G1 : forall v f before, (forall v1 v2 x, v = (v1 ++ [x]) ++ v2 -> k (mk_mst (rev (v1 ++ [x]) ++ before) (v2 ++ rest) cs) = None) ->
     star_loop true (RCls c) k f (mk_mst before (v ++ rest) cs) = k (mk_mst before (v ++ rest) cs)).
  { clear w Hw Hk before v Hv. induction v as [|x v IH]; intros f before Hv.
    - destruct f as [|z f]; [reflexivity|]. rewrite star_loop_cons. cbn [app]. destruct rest as [|x rest]; [rewrite m_cls_nil; reflexivity|].
      rewrite m_cls. cbn in Hr. rewrite Hr. reflexivity.
    - destruct f as [|z f]; [reflexivity|]. rewrite star_loop_cons. cbn [app]. rewrite m_cls. destruct (in_cls c x); [|reflexivity].
      rewrite IH.
      + pose proof (Hv [] v x eq_refl) as E. cbn [rev app] in E. rewrite E. reflexivity.
      + intros v1 v2 z0 ->. specialize (Hv (x :: v1) v2 z0). cbn [rev app] in Hv. rewrite <- (app_assoc (rev (v1 ++ [z0]))) in Hv. apply Hv. reflexivity. }
  assert (G : forall w f before, forallb (in_cls c) w = true ->
              k (mk_mst (rev w ++ before) (v ++ rest) cs) = Some y ->
              (forall v1 v2 x, v = (v1 ++ [x]) ++ v2 -> k (mk_mst (rev (v1 ++ [x]) ++ rev w ++ before) (v2 ++ rest) cs) = None) ->
              (List.length w <= List.length f)%nat ->
              star_loop true (RCls c) k f (mk_mst before (w ++ v ++ rest) cs) = Some y).
  { clear Hw Hk w before Hv. induction w as [|x w IH]; intros f before Hw Hk Hv Hlen.
    - cbn [app rev] in *. rewrite G1; auto.
    - destruct f as [|z f]; [cbn in Hlen; lia|]. rewrite star_loop_cons. cbn [app]. rewrite m_cls.
      cbn [forallb] in Hw. apply andb_true_iff in Hw as [Hx Hw]. rewrite Hx. cbn [rev] in Hk, Hv. rewrite <- app_assoc in Hk.
      rewrite (IH f (x :: before)); [reflexivity|exact Hw|exact Hk| |cbn in Hlen; lia].
      intros v1 v2 x0 E. specialize (Hv v1 v2 x0 E). rewrite <- (app_assoc (rev w)) in Hv. exact Hv. }
  rewrite forallb_app in Hw. apply andb_true_iff in Hw as [Hw _].
  apply G; auto. rewrite app_length; lia.
Qed.

Lemma scan_take r before w rest s last : w <> [] -> match_at r before (w ++ rest) = Some s -> m_after s = rest ->
  scan r before (w ++ rest) O last = Hit (mk_hit_of (w ++ rest) s) :: scan r (rev w ++ before) rest O true.
Proof.
  intros Hw E Ea. assert (h_text (mk_hit_of (w ++ rest) s) = w) as Et by (unfold mk_hit_of; cbn [h_text]; rewrite Ea; apply cap_str_app).
  destruct w as [|c w]; [congruence|]. cbn [app] in *. rewrite scan_cons, E, Et, Ea. reflexivity.
Qed.

(** ** Block signatures *)
Definition SIGNATURES : list str :=
  [u "bq"; u "bc"; u "notextile"; u "pre"; u "h1"; u "h2"; u "h3"; u "h4"; u "h5"; u "h6"; u "p"; u "###"].
Definition tag_names (r : rx) : re := match rx_re r with RSeq _ (RSeq (RGroup _ a) _) => a | _ => REps end.
Definition tag_atts : re := match rx_re TEXTILE_TAG_RE with RSeq _ (RSeq _ (RSeq (RGroup _ a) _)) => a | _ => REps end.
Definition tag_rest : re :=
  RSeq (RCls (one 46)) (RSeq (RGroup 3 (RAlt (RCls (one 46)) REps)) (RSeq
    (RAlt (RSeq (RCls (one 58)) (RGroup 4 (RSeq (RCls (mk_cls false [CProp true PSpace])) (RStar true (RCls (mk_cls false [CProp true PSpace])))))) REps)
    (RSeq (RCls (one 32)) (RSeq (RGroup 5 (RStar true (RCls any_cls))) (RAssert EOT))))).
Lemma tag_shape : rx_re TEXTILE_TAG_RE = RSeq (RAssert SOT) (RSeq (RGroup 1 (tag_names TEXTILE_TAG_RE)) (RSeq (RGroup 2 tag_atts) tag_rest)).
Proof. reflexivity. Qed.
Lemma light_shape : rx_re TEXTILE_LIGHT_TAG_RE = RSeq (RAssert SOT) (RSeq (RGroup 1 (tag_names TEXTILE_LIGHT_TAG_RE)) (RSeq (RGroup 2 tag_atts) tag_rest)).
Proof. reflexivity. Qed.
Lemma atts_skip b bs rest cs k : In b (u "qce123456p#") -> m tag_atts (mk_mst (b :: bs) (46 :: rest) cs) k = k (mk_mst (b :: bs) (46 :: rest) cs).
Proof. intros H. repeat (destruct H as [<-|H]; [reflexivity|]). destruct H. Qed.
Lemma rest_take before cs content :
  m tag_rest (mk_mst before (46 :: 32 :: content) cs) Some =
  Some (mk_mst (rev content ++ 32 :: 46 :: before) [] ((5%nat, (content, [])) :: (3%nat, (32 :: content, 32 :: content)) :: cs)).
Proof.
  unfold tag_rest. rewrite m_seq, m_cls, in_one. cbn [N.eqb Pos.eqb]. rewrite m_seq, m_group, m_alt, m_cls, in_one. cbn [N.eqb Pos.eqb].
  rewrite m_eps. cbn [m_before m_after m_caps]. rewrite m_seq, m_alt, m_seq, m_cls, in_one. cbn [N.eqb Pos.eqb]. rewrite m_eps.
  rewrite m_seq, m_cls, in_one. cbn [N.eqb Pos.eqb]. rewrite m_seq, m_group. rewrite <- (app_nil_r content) at 1.
  apply m_star_greedy; [apply all_any|exact I|]. cbn [m_before m_after m_caps]. rewrite m_assert. reflexivity.
Qed.
Lemma names_take (light : bool) tag before rest cs k y : In tag (if light then [u "bq"; u "bc"; u "p"] else SIGNATURES) ->
  k (mk_mst (rev tag ++ before) (46 :: rest) cs) = Some y ->
  m (tag_names (if light then TEXTILE_LIGHT_TAG_RE else TEXTILE_TAG_RE)) (mk_mst before (tag ++ 46 :: rest) cs) k = Some y.
Proof.
  intros H Hk. destruct light; cbn [In SIGNATURES] in H; repeat (destruct H as [<-|H]; [revert Hk|]); try destruct H.
  all: intros Hk; lazy; match goal with |- match ?ks with _ => _ end = ?z => replace ks with z by (symmetry; exact Hk); reflexivity | _ => exact Hk end.
Qed.
Definition signature_hit (light : bool) (tag content : str) (h : hit) : Prop :=
  cap_text 1 (h_caps h) = Some tag /\ cap_text 2 (h_caps h) = Some [] /\ cap_text 3 (h_caps h) = Some [] /\ cap_text 4 (h_caps h) = None /\ cap_text 5 (h_caps h) = Some content.
Lemma signature_captures (light : bool) tag content : In tag (if light then [u "bq"; u "bc"; u "p"] else SIGNATURES) ->
  exists h, captures (rx_re (if light then TEXTILE_LIGHT_TAG_RE else TEXTILE_TAG_RE)) (tag ++ u ". " ++ content) = Some h /\ signature_hit light tag content h.
Proof.
  intros H. change (u ". ") with [46; 32]. cbn [app].
  set (text := tag ++ 46 :: 32 :: content).
  set (s := mk_mst (rev content ++ 32 :: 46 :: rev tag ++ []) [] ((5%nat, (content, [])) :: (3%nat, (32 :: content, 32 :: content)) ::
     (2%nat, (46 :: 32 :: content, 46 :: 32 :: content)) :: (1%nat, (text, 46 :: 32 :: content)) :: [])).
  assert (exists b bs, rev tag ++ [] = b :: bs /\ In b (u "qce123456p#")) as Hlast.
  { assert (In tag SIGNATURES) as H' by (destruct light; auto; cbn [In SIGNATURES] in *; tauto). cbn [In SIGNATURES] in H'.
    repeat (destruct H' as [<-|H']; [eexists _, _; split; [reflexivity|vm_compute; tauto]|]). destruct H'. }
  assert (match_at (rx_re (if light then TEXTILE_LIGHT_TAG_RE else TEXTILE_TAG_RE)) [] text = Some s) as E.
  { unfold match_at. assert (forall a, m (RSeq (RAssert SOT) (RSeq (RGroup 1 a) (RSeq (RGroup 2 tag_atts) tag_rest))) (mk_mst [] text []) Some =
       m a (mk_mst [] text []) (fun s' => m (RSeq (RGroup 2 tag_atts) tag_rest) (mk_mst (m_before s') (m_after s') ((1%nat, (text, m_after s')) :: m_caps s')) Some)) as P by reflexivity.
    assert (m (tag_names (if light then TEXTILE_LIGHT_TAG_RE else TEXTILE_TAG_RE)) (mk_mst [] text []) (fun s' => m (RSeq (RGroup 2 tag_atts) tag_rest) (mk_mst (m_before s') (m_after s') ((1%nat, (text, m_after s')) :: m_caps s')) Some) = Some s) as Q.
    { unfold text at 1. apply names_take; auto. cbn [m_before m_after m_caps]. rewrite m_seq, m_group.
      destruct Hlast as (b & bs & Eb & Hb). unfold s. rewrite Eb. rewrite atts_skip by auto. cbn [m_before m_after m_caps]. rewrite rest_take. reflexivity. }
    destruct light; [rewrite light_shape|rewrite tag_shape]; rewrite P; exact Q. }
  exists (mk_hit_of text s). split.
  - unfold captures, find_first. unfold find_from. destruct text eqn:Et; rewrite E; reflexivity.
  - unfold mk_hit_of, s, signature_hit, cap_text. cbn [h_caps m_caps find_cap Nat.eqb option_map]. repeat split; f_equal.
    + unfold text. apply cap_str_app.
    + apply (cap_str_app [] (46 :: 32 :: content)).
    + apply (cap_str_app [] (32 :: content)).
    + rewrite <- (app_nil_r content) at 1. apply cap_str_app.
Qed.

(** ** Line breaks in paragraphs and headings *)
Definition PBR_NAMES : list str := [u "p"; u "h1"; u "h2"; u "h3"; u "h4"; u "h5"; u "h6"].
Definition pbr_names : re := RAlt (RCls (one 112)) (RSeq (RCls (one 104)) (RCls (mk_cls false [CRange 49 54]))).
Definition pbr_close : re := RSeq (RCls (one 60)) (RSeq (RCls (one 47)) (RSeq (RBackref 1) (RCls (one 62)))).
Lemma pbr_shape : rx_re PBR_TAG_RE = RSeq (RCls (one 60)) (RSeq (RGroup 1 pbr_names) (RSeq (RGroup 2 (RStar false (RCls (mk_cls true [CRange 62 62]))))
  (RSeq (RCls (one 62)) (RSeq (RGroup 3 (RStar true (RCls any_cls))) (RGroup 4 pbr_close))))).
Proof. reflexivity. Qed.
(** Nothing after the last angle bracket. *)
Lemma close_fails before rest cs k : ~ In 60 rest -> m (RGroup 4 pbr_close) (mk_mst before rest cs) k = None.
Proof.
  intros H. rewrite m_group. unfold pbr_close. rewrite m_seq. destruct rest as [|c rest]; [reflexivity|]. rewrite m_cls, in_one.
  destruct (N.eqb_spec c 60) as [->|]; [destruct H; left; auto|reflexivity].
Qed.
Lemma eat_lit_app w : forall before rest cs, eat_lit w (mk_mst before (w ++ rest) cs) = Some (mk_mst (rev w ++ before) rest cs).
Proof.
  induction w as [|c w IH]; intros before rest cs; [reflexivity|]. cbn [eat_lit app m_after]. rewrite N.eqb_refl. unfold step. cbn [m_before m_caps].
  rewrite IH. cbn [rev]. rewrite <- app_assoc. reflexivity.
Qed.
Lemma close_takes tag v before cs k : find_cap 1 cs = Some v -> cap_str v = tag ->
  m (RGroup 4 pbr_close) (mk_mst before (60 :: 47 :: tag ++ [62]) cs) k =
  k (mk_mst (62 :: rev tag ++ 47 :: 60 :: before) [] ((4%nat, (60 :: 47 :: tag ++ [62], [])) :: cs)).
Proof.
  intros Hv Ht. rewrite m_group. unfold pbr_close. rewrite m_seq, m_cls, in_one. cbn [N.eqb Pos.eqb]. rewrite m_seq, m_cls, in_one. cbn [N.eqb Pos.eqb].
  rewrite m_seq. cbn [m m_caps]. rewrite Hv, Ht, eat_lit_app. cbn [m_after]. rewrite in_one. cbn [N.eqb Pos.eqb]. unfold step. reflexivity.
Qed.
Lemma element_hit tag t : In tag PBR_NAMES -> ~ In 60 t ->
  exists s, match_at (rx_re PBR_TAG_RE) [] (element tag t) = Some s /\ m_after s = [] /\
    cap_text 1 (m_caps s) = Some tag /\ cap_text 2 (m_caps s) = Some [] /\ cap_text 3 (m_caps s) = Some t /\ cap_text 4 (m_caps s) = Some (u "</" ++ tag ++ u ">").
Proof.
  intros H H60. unfold element. set (close := u "</" ++ tag ++ u ">").
  change (u "<" ++ tag ++ u ">" ++ t ++ close) with (60 :: tag ++ 62 :: t ++ close).
  exists (mk_mst (rev close ++ rev t ++ 62 :: rev tag ++ [60]) [] [(4%nat, (close, [])); (3%nat, (t ++ close, close)); (2%nat, (62 :: t ++ close, 62 :: t ++ close)); (1%nat, (tag ++ 62 :: t ++ close, 62 :: t ++ close))]).
  split.
  2:{ split; [reflexivity|]. unfold cap_text. cbn [m_caps find_cap Nat.eqb option_map]. repeat split; f_equal.
      - apply cap_str_app. - apply (cap_str_app [] (62 :: t ++ close)). - apply cap_str_app. - rewrite <- (app_nil_r close) at 1. apply cap_str_app. }
  unfold match_at. rewrite pbr_shape, m_seq, m_cls, in_one. cbn [N.eqb Pos.eqb]. rewrite m_seq, m_group.
  assert (forall k y, k (mk_mst (rev tag ++ [60]) (62 :: t ++ close) []) = Some y -> m pbr_names (mk_mst [60] (tag ++ 62 :: t ++ close) []) k = Some y) as N.
  { intros k y Hk. generalize dependent (t ++ close). intros r Hk. cbn [In PBR_NAMES] in H.
    repeat (destruct H as [<-|H]; [unfold pbr_names; exact Hk || (apply m_alt_l; exact Hk) || (rewrite m_alt_r; [exact Hk|reflexivity])|]). destruct H. }
  apply N. clear N. cbn [m_before m_after m_caps]. rewrite m_seq, m_group.
  rewrite m_star. cbn [m_after]. rewrite star_loop_cons. cbn [m_before m_after m_caps]. rewrite m_seq, m_cls, in_one. cbn [N.eqb Pos.eqb]. rewrite m_seq, m_group.
  match goal with |- match ?x with _ => _ end = ?y => assert (x = y) as ->; [|reflexivity] end.
  rewrite <- (app_nil_r close) at 1. apply (m_star_back any_cls _ _ close t _ []).
  - apply all_any.
  - exact I.
  - cbn [m_before m_after m_caps]. rewrite app_nil_r. unfold close at 1. change (u "</" ++ tag ++ u ">") with (60 :: 47 :: tag ++ [62]).
    erewrite close_takes; [|reflexivity|apply cap_str_app]. unfold close. change (u "</" ++ tag ++ u ">") with (60 :: 47 :: tag ++ [62]).
    cbn [rev]. rewrite rev_app_distr, <- !app_assoc. reflexivity.
  - intros v1 v2 x E. cbn [m_before m_after m_caps]. rewrite app_nil_r. apply close_fails. intros F. unfold close in E. change (u "</" ++ tag ++ u ">") with (60 :: 47 :: tag ++ [62]) in E.
    assert (~ In 60 (47 :: tag ++ [62])) as Ht.
    { intros G. destruct G as [G|G]; [discriminate|]. apply in_app_or in G. destruct G as [G|[G|[]]]; [|discriminate].
      cbn [In PBR_NAMES] in H. repeat (destruct H as [<-|H]; [vm_compute in G; intuition discriminate|]). destruct H. }
    destruct v1 as [|y v1]; injection E as _ E; apply Ht; rewrite E; [exact F|apply in_or_app; right; exact F].
Qed.
Definition nl_space : re := RSeq (RCls (one 10)) (RCls (mk_cls false [CProp false PSpace; CRange 124 124])).
Lemma pnl_shape : rx_re PBR_NEWLINE_RE = RSeq (RCls (one 10)) (RNLook (RCls (mk_cls false [CProp false PSpace; CRange 124 124]))).
Proof. reflexivity. Qed.
Lemma cap_one c (r : str) : cap_str (c :: r, r) = [c].
Proof. apply (cap_str_app [c] r). Qed.
Lemma newline_breaks br : forall t before last, (forall w v, t = w ++ v -> match_at nl_space (rev w ++ before) v = None) ->
  flat_map (fun g => match g with Lit c => [c] | Hit _ => br end) (scan (rx_re PBR_NEWLINE_RE) before t O last) = breaks br t.
Proof.
  induction t as [|c t IH]; intros before last H.
  { rewrite scan_nil. destruct last; reflexivity. }
  assert (forall b l, b = c :: before -> flat_map (fun g => match g with Lit c => [c] | Hit _ => br end) (scan (rx_re PBR_NEWLINE_RE) b t O l) = breaks br t) as IH'.
  { intros b l ->. apply IH. intros w v E. specialize (H (c :: w) v). cbn [rev app] in H. rewrite <- app_assoc in H. apply H. rewrite E. reflexivity. }
  rewrite scan_cons. unfold match_at. rewrite pnl_shape, m_seq, m_cls, in_one, <- pnl_shape. unfold breaks. cbn [flat_map]. fold (breaks br t).
  destruct (N.eqb_spec c 10) as [->|Hc].
  2:{ cbn [flat_map app]. rewrite IH' by reflexivity. reflexivity. }
  rewrite m_nlook. pose proof (H [] (10 :: t) eq_refl) as E. cbn [rev app] in E. unfold match_at, nl_space in E. rewrite m_seq, m_cls, in_one in E. cbn [N.eqb Pos.eqb] in E.
  rewrite E. unfold mk_hit_of. cbn [m_after m_caps h_text]. rewrite cap_one. cbn [flat_map rev app]. rewrite IH' by reflexivity. reflexivity.
Qed.
Lemma pbr_br_shape : exists x, rx_re PBR_BR_RE = RSeq (RCls (one 60)) x.
Proof. eexists. reflexivity. Qed.
Lemma do_p_br_element T tag t : In tag PBR_NAMES -> ~ In 60 t -> no_match nl_space t ->
  forall s, do_p_br T (element tag t) s = Ret (element tag (breaks (br_tag T) t)) s.
Proof.
  intros H H60 Hn s. destruct (element_hit tag t H H60) as (s0 & E & Ea & C1 & C2 & C3 & C4).
  unfold do_p_br, replace_allM, segs.
  assert (element tag t = 60 :: tag ++ u ">" ++ t ++ u "</" ++ tag ++ u ">") as Ee by reflexivity. rewrite Ee in *.
  set (r := tag ++ u ">" ++ t ++ u "</" ++ tag ++ u ">") in *. rewrite scan_cons, E.
  assert (h_text (mk_hit_of (60 :: r) s0) = 60 :: r) as Et.
  { unfold mk_hit_of. cbn [h_text]. rewrite Ea. rewrite <- (app_nil_r (60 :: r)) at 1. apply cap_str_app. }
  rewrite Et, Ea, scan_nil. cbn [mapM replace_segM]. unfold f_p_br, bind, capx, mk_hit_of. cbn [h_caps]. rewrite C1, C2, C3, C4.
  cbn [of_opt]. unfold ret. cbn [List.concat].
  rewrite (replace_all_no_match (rx_re PBR_BR_RE)).
  2:{ intros w v E'. unfold match_at. destruct pbr_br_shape as (x & ->). rewrite m_seq.
      destruct v as [|c v]; [reflexivity|]. rewrite m_cls, in_one. destruct (N.eqb_spec c 60) as [->|]; [|reflexivity]. destruct H60. rewrite E'. apply in_or_app. right. left. auto. }
  unfold replace_all, segs. rewrite newline_breaks by (intros w v E'; rewrite app_nil_r; auto). rewrite app_nil_r. reflexivity.
Qed.

(** ** Breaks *)
Definition not_br (t : str) : Prop :=
  match t with x :: y :: _ => (x = 98 \/ x = 66) -> (y = 114 \/ y = 82) -> False | _ => True end.
Inductive brs (br fb : str) : str -> str -> Prop :=
| brs_nil : brs br fb [] []
| brs_char c t t' : c <> 60 -> brs br fb t t' -> brs br fb (c :: t) (c :: t')
| brs_other t t' : not_br t -> brs br fb t t' -> brs br fb (60 :: t) (60 :: t')
| brs_br c t t' : c <> 10 -> brs br fb (c :: t) t' -> brs br fb (br ++ c :: t) (fb ++ t').
Lemma br_re_shape : exists x, rx_re BR_TAG_RE = RSeq (RCls (one 60)) (RSeq (RCls (mk_cls false [CRange 98 98; CRange 66 66])) (RSeq (RCls (mk_cls false [CRange 114 114; CRange 82 82])) x)).
Proof. eexists. reflexivity. Qed.
Lemma br_pattern_shape2 : exists x, rx_re BR_PATTERN = RSeq (RCls (one 60)) (RSeq (RCls (one 98)) (RSeq (RCls (one 114)) x)).
Proof. eexists. reflexivity. Qed.
Lemma in_two a b c : in_cls (mk_cls false [CRange a a; CRange b b]) c = true -> c = a \/ c = b.
Proof.
  unfold in_cls. cbn [c_neg c_items existsb in_item]. intros H.
  destruct (N.leb_spec a c), (N.leb_spec c a), (N.leb_spec b c), (N.leb_spec c b); cbn in H; try discriminate; lia.
Qed.
Lemma not_br_tag before t : not_br t -> match_at (rx_re BR_TAG_RE) before (60 :: t) = None.
Proof.
  intros H. unfold match_at. destruct br_re_shape as (x & ->). rewrite m_seq, m_cls, in_one. cbn [N.eqb Pos.eqb]. rewrite m_seq.
  destruct t as [|c t]; [reflexivity|]. rewrite m_cls. destruct (in_cls _ c) eqn:E1; [|reflexivity]. rewrite m_seq.
  destruct t as [|d t]; [reflexivity|]. rewrite m_cls. destruct (in_cls _ d) eqn:E2; [|reflexivity]. destruct (H (in_two _ _ _ E1) (in_two _ _ _ E2)).
Qed.
Lemma not_br_pattern before t : not_br t -> match_at (rx_re BR_PATTERN) before (60 :: t) = None.
Proof.
  intros H. unfold match_at. destruct br_pattern_shape2 as (x & ->). rewrite m_seq, m_cls, in_one. cbn [N.eqb Pos.eqb]. rewrite m_seq.
  destruct t as [|c t]; [reflexivity|]. rewrite m_cls, in_one. destruct (N.eqb_spec c 98); [|reflexivity]. rewrite m_seq.
  destruct t as [|d t]; [reflexivity|]. rewrite m_cls, in_one. destruct (N.eqb_spec d 114); [|reflexivity]. destruct H; auto.
Qed.
Lemma brs_tag br : is_br br -> forall t t', brs br br t t' -> forall before last,
  flat_map (fun g => match g with Lit c => [c] | Hit _ => br end) (scan (rx_re BR_TAG_RE) before t O last) = t'.
Proof.
  intros Hbr t t' H. induction H as [|c t t' Hc H IH|t t' Hn H IH|c t t' Hc H IH]; intros before last.
  - rewrite scan_nil. destruct last; [reflexivity|]. destruct br_re_shape as (x & ->). reflexivity.
  - rewrite scan_cons. unfold match_at. destruct br_re_shape as (x & Ex). rewrite Ex, m_seq, m_cls, in_one, <- Ex. destruct (N.eqb_spec c 60); [congruence|].
    cbn [flat_map app]. rewrite IH. reflexivity.
  - rewrite scan_cons, not_br_tag by auto. cbn [flat_map app]. rewrite IH. reflexivity.
  - assert (exists s, match_at (rx_re BR_TAG_RE) before (br ++ c :: t) = Some s /\ m_after s = c :: t) as (s & E & Ea).
    { destruct Hbr as [-> | ->]; eexists; split; try reflexivity. }
    rewrite (scan_take _ _ br (c :: t) s) by (auto; destruct Hbr as [-> | ->]; discriminate). cbn [flat_map]. rewrite IH. reflexivity.
Qed.
Lemma brs_pattern br fb : is_br br -> forall t t', brs br fb t t' -> forall before last,
  flat_map (fun g => match g with Lit c => [c] | Hit _ => fb end) (scan (rx_re BR_PATTERN) before t O last) = t'.
Proof.
  intros Hbr t t' H. induction H as [|c t t' Hc H IH|t t' Hn H IH|c t t' Hc H IH]; intros before last.
  - rewrite scan_nil. destruct last; [reflexivity|]. destruct br_pattern_shape2 as (x & ->). reflexivity.
  - rewrite scan_cons. unfold match_at. destruct br_pattern_shape2 as (x & Ex). rewrite Ex, m_seq, m_cls, in_one, <- Ex. destruct (N.eqb_spec c 60); [congruence|].
    cbn [flat_map app]. rewrite IH. reflexivity.
  - rewrite scan_cons, not_br_pattern by auto. cbn [flat_map app]. rewrite IH. reflexivity.
  - assert (exists s, match_at (rx_re BR_PATTERN) before (br ++ c :: t) = Some s /\ m_after s = c :: t) as (s & E & Ea).
    { rewrite br_pattern_shape. unfold match_at. apply N.eqb_neq in Hc.
      destruct Hbr as [ -> | -> ]; lits; cbn [app]; eexists;
        (split; [repeat (mstep; cbn [m_before m_after m_caps]; try eval_one); rewrite in_one, Hc; reflexivity|reflexivity]). }
    rewrite (scan_take _ _ br (c :: t) s) by (auto; destruct Hbr as [-> | ->]; discriminate). cbn [flat_map]. rewrite IH. reflexivity.
Qed.
Lemma breaks_brs br fb x r r' : forall t, ~ In 60 t -> x <> 10 -> is_br br -> brs br fb (x :: r) (x :: r') -> brs br fb (breaks br t ++ x :: r) (breaks fb t ++ x :: r').
Proof.
  intros t H Hx Hbr Hr. induction t as [|c t IH]; [exact Hr|]. unfold breaks. cbn [flat_map]. fold (breaks br t) (breaks fb t). 
  destruct (N.eqb_spec c 10) as [->|Hc].
  - rewrite <- !app_assoc.
    assert (exists d w, breaks br t ++ x :: r = d :: w /\ d <> 10) as (d & w & E & Hd).
    { destruct t as [|d t]; [exists x, r; auto|]. unfold breaks. cbn [flat_map]. destruct (N.eqb_spec d 10) as [->|Hd].
      - destruct Hbr as [-> | ->]; eexists 60, _; (split; [reflexivity|discriminate]).
      - eexists d, _. split; [reflexivity|auto]. }
    assert (brs br fb (breaks br t ++ x :: r) (breaks fb t ++ x :: r')) as IH' by (apply IH; intros F; apply H; right; auto).
    rewrite E in *. apply brs_br; auto.
  - cbn [app]. apply brs_char.
    + intros ->. apply H. left. auto.
    + apply IH. intros F. apply H. right. auto.
Qed.
Lemma element_brs br fb tag t r r' : is_br br -> In tag PBR_NAMES -> ~ In 60 t -> brs br fb r r' ->
  brs br fb (element tag (breaks br t) ++ r) (element tag (breaks fb t) ++ r').
Proof.
  intros Hbr Ht H60 Hr. unfold element. rewrite <- !app_assoc.
  assert (exists x w, tag = x :: w /\ x <> 98 /\ x <> 66 /\ x <> 60 /\ ~ In 60 w) as (x & w & -> & H1 & H2 & H3 & H4).
  { cbn [In PBR_NAMES] in Ht. repeat (destruct Ht as [<-|Ht]; [eexists _, _; split; [reflexivity|]; repeat split; try discriminate; vm_compute; intuition discriminate|]). destruct Ht. }
  assert (forall p a b, ~ In 60 p -> brs br fb a b -> brs br fb (p ++ a) (p ++ b)) as P.
  { induction p as [|c p IH]; intros a b Hp Hab; [exact Hab|]. cbn [app]. apply brs_char; [intros ->; apply Hp; left; auto|]. apply IH; auto. intros F. apply Hp. right. auto. }
  change (u "<") with [60]. change (u "</") with [60; 47]. change (u ">") with [62]. cbn [app].
  apply brs_other; [destruct w; cbn [app not_br]; intuition congruence|]. apply brs_char; auto. apply P; auto. apply brs_char; [discriminate|].
  apply breaks_brs; auto; [discriminate|]. apply brs_other; [cbn [not_br]; intuition discriminate|]. apply brs_char; [discriminate|]. apply brs_char; auto. apply P; auto. apply brs_char; [discriminate|auto].
Qed.
