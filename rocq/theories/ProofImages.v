(** Images as the parser sees them. *)
From Verif Require ProofHtml.
From Verif Require Import Str Unicode Regex RegexParse RegexSnips RegexTheory RegexAuto RegexGroups Lib ModelBase ModelHtml ModelUrl
  ModelAttrs ModelInline ModelParser SpecRegex ProofRegex ProofCharref SpecParse ProofParse Logic ProofWalk ProofState SpecState ProofMemory ProofCache SpecLinks ProofLinks ProofDoc
  SpecPlain ProofPlain SpecNewlines ProofNewlines ProofParas ProofWeave ProofListText ProofTags ProofSections ProofBlocks ProofStateEx SpecDoc ProofDocument SpecText ProofText ProofSpan ProofSpanRe ProofSpanText SpecSpans ProofSpanDoc ProofSpanPage
  SpecSigned ProofSigned ProofSignedDoc ProofSignedPage ProofSignedEnd ProofSignedTop ProofPages ProofItems SpecCode ProofCode SpecLinked ProofLinkAuto ProofStock ProofStockDoc ProofCodeDoc ProofCodePage ProofLinked ProofLinkedDoc SpecImages ProofImageAuto.
#[local] Arguments u : simpl never.

(** ** The expression *)
Definition re_pre : re := RAlt (RCls (mk_cls false [CRange 91 91; CRange 123 123])) REps.
Definition side_cls : cls := mk_cls false [CRange 60 60; CRange 62 62; CRange 61 61].
Definition re_ent (c : N) : re := RSeq (RCls (ProofParse.one 38)) (RSeq (RCls (ProofParse.one c)) (RSeq (RCls (ProofParse.one 116)) (RCls (ProofParse.one 59)))).
Definition re_side : re := RAlt (RGroup 1 (RAlt (RCls side_cls) (RAlt (re_ent 108) (re_ent 103)))) REps.
Definition re_cls : re := match rx_re IMAGE_RE with RSeq _ (RSeq _ (RSeq _ (RSeq (RGroup _ x) _))) => x | _ => REps end.
Definition re_dot : re := RAlt (RSeq (RCls (ProofParse.one 46)) (RCls space_cls)) REps.
Definition src_cls : cls := mk_cls true [CProp false PSpace; CRange 40 40; CRange 33 33].
Definition alt_cls : cls := mk_cls true [CRange 41 41].
Definition href_cls : cls := mk_cls false [CProp true PSpace].
Definition back_cls : cls := mk_cls false [CRange 93 93; CRange 41 41; CRange 46 46; CRange 44 44].
Definition re_plus (c : cls) : re := RSeq (RCls c) (RStar true (RCls c)).
Definition re_space : re := RAlt (RCls space_cls) REps.
Definition re_alt : re := RAlt (RSeq (RCls (ProofParse.one 40)) (RSeq (RGroup 4 (re_plus alt_cls)) (RCls (ProofParse.one 41)))) REps.
Definition re_href : re := RAlt (RSeq (RCls (ProofParse.one 58)) (RSeq (RGroup 5 (re_plus href_cls)) (RNLook (RBack back_cls)))) REps.
Definition re_end : re := RAlt (RCls (mk_cls false [CRange 93 93; CRange 125 125]))
  (RLook (RAlt (RCls (mk_cls false [CRange 46 46; CRange 44 44; CProp false PSpace; CRange 41 41; CRange 124 124])) (RAssert EOT))).
Lemma image_shape : rx_re IMAGE_RE = RSeq re_pre (RSeq (RCls (ProofParse.one 33)) (RSeq re_side (RSeq (RGroup 2 re_cls) (RSeq re_dot (RSeq (RGroup 3 (re_plus src_cls)) (RSeq re_space (RSeq re_alt (RSeq (RCls (ProofParse.one 33)) (RSeq re_href re_end))))))))).
Proof. reflexivity. Qed.
(** A greedy loop that has to give back its last character. *)
Lemma m_star_back c k y : forall w d before rest cs, forallb (in_cls c) w = true -> in_cls c d = true -> stops c rest ->
  k (mk_mst (d :: rev w ++ before) rest cs) = None -> k (mk_mst (rev w ++ before) (d :: rest) cs) = Some y ->
  m (RStar true (RCls c)) (mk_mst before (w ++ d :: rest) cs) k = Some y.
Proof.
  intros w d before rest cs Hw Hd Hr Hn Hk. rewrite m_star. cbn [m_after].
  assert (G : forall w f before, forallb (in_cls c) w = true -> k (mk_mst (d :: rev w ++ before) rest cs) = None ->
              k (mk_mst (rev w ++ before) (d :: rest) cs) = Some y -> (List.length w < List.length f)%nat ->
              star_loop true (RCls c) k f (mk_mst before (w ++ d :: rest) cs) = Some y).
  { clear Hw Hn Hk w before. induction w as [|x w IH]; intros f before Hw Hn Hk Hlen.
    - destruct f as [|z f]; [cbn in Hlen; lia|]. rewrite star_loop_cons. cbn [app rev] in *. rewrite m_cls, Hd. 
      assert (star_loop true (RCls c) k f (mk_mst (d :: before) rest cs) = None) as ->; [|exact Hk].
      destruct f as [|z' f]; [exact Hn|]. rewrite star_loop_cons. destruct rest as [|x rest]; [rewrite m_cls_nil; exact Hn|]. rewrite m_cls. cbn [stops] in Hr. rewrite Hr. exact Hn.
    - destruct f as [|z f]; [cbn in Hlen; lia|]. rewrite star_loop_cons. cbn [app rev] in *. rewrite m_cls. cbn [forallb] in Hw. apply andb_prop in Hw as [Hx Hw]. rewrite Hx. rewrite <- app_assoc in Hn, Hk. cbn [app] in Hn, Hk.
      rewrite IH; auto. cbn in Hlen. lia. }
  apply G; auto. rewrite app_length. cbn [List.length]. lia.
Qed.
Lemma skip_alt a s k : m a s k = None -> m (RAlt a REps) s k = k s.
Proof. intros H. rewrite m_alt, H. apply m_eps. Qed.
Lemma take_alt a s k y : m a s k = Some y -> m (RAlt a REps) s k = Some y.
Proof. intros H. rewrite m_alt, H. reflexivity. Qed.
(** ** Matching an image *)
Lemma end_ok before t cs k y : image_tail t -> k (mk_mst before t cs) = Some y -> m re_end (mk_mst before t cs) k = Some y.
Proof.
  intros Ht Hk. unfold re_end. rewrite m_alt. destruct t as [|c t].
  - rewrite m_cls_nil, m_look, m_alt, m_cls_nil, m_assert. cbn [assert_holds is_empty]. exact Hk.
  - cbn [image_tail In] in Ht. rewrite m_cls. 
    assert (in_cls (mk_cls false [CRange 93 93; CRange 125 125]) c = false /\ in_cls (mk_cls false [CRange 46 46; CRange 44 44; CProp false PSpace; CRange 41 41; CRange 124 124]) c = true) as [-> E] by (intuition (subst; reflexivity)).
    rewrite m_look, m_alt, m_cls, E. exact Hk.
Qed.
Definition href_seen (h : option str) : str := maybe (fun h => 58 :: h) h.
Definition href_caps (h : option str) (t : str) (cs : caps) : caps := match h with Some x => (5%nat, (x ++ t, t)) :: cs | None => cs end.
Definition tail_shape (t : str) : Prop := t = [] \/ (exists r, t = 32 :: r) \/ (exists r, t = 10 :: r) \/ exists d t', t = d :: t' /\ In d [44; 46] /\ match t' with [] => True | c :: _ => is_ws c = true end.
Lemma shape_tail t : tail_shape t -> image_tail t.
Proof. intros [->|[(r & ->)|[(r & ->)|(d & t' & -> & Hd & _)]]]; cbn [image_tail In] in *; tauto. Qed.
Lemma tail_space t : (accepts between_code t \/ accepts after_code t) -> image_tail t -> tail_shape t.
Proof.
  intros H Ht. destruct t as [|c t]; [left; reflexivity|right]. cbn [image_tail In] in Ht. destruct Ht as [<-|[<-|Ht]]; [left; eauto|right; left; eauto|right; right]. exists c, t. split; [reflexivity|]. split; [cbn [In]; tauto|].
  destruct t as [|d t]; [exact I|]. pose proof (tail_facts (c :: d :: t) H _ (or_intror (or_intror (or_introl eq_refl)))) as N.
  specialize (N [] (c :: d :: t) eq_refl). unfold match_at in N. rewrite m_seq, m_assert in N. cbn [assert_holds is_empty rev m_before] in N. rewrite m_seq, m_cls in N.
  assert (in_cls after_fragment c = true) as Ha by (destruct Ht as [<-|[<-|[]]]; reflexivity). rewrite Ha, m_cls in N.
  destruct (is_ws d) eqn:Ed; [reflexivity|]. exfalso. unfold in_cls, space_cls in N. cbn [c_neg c_items existsb in_item has_prop] in N. rewrite Ed in N. discriminate.
Qed.
Lemma href_char c : is_ws c = false -> in_cls href_cls c = true.
Proof. intros H. unfold in_cls, href_cls. cbn [c_neg c_items existsb in_item has_prop]. rewrite H. reflexivity. Qed.
Lemma ws_stops c r : is_ws c = true -> stops href_cls (c :: r).
Proof. intros H. cbn [stops]. unfold in_cls, href_cls. cbn [c_neg c_items existsb in_item has_prop]. rewrite H. reflexivity. Qed.
Lemma url_back c : In c url_last -> in_cls back_cls c = false.
Proof.
  intros H. assert (forallb (fun c => negb (in_cls back_cls c)) url_last = true) as F by (vm_compute; reflexivity). rewrite forallb_forall in F. apply F in H. apply negb_true_iff in H. exact H.
Qed.
Lemma nlook_back before e t cs k : in_cls back_cls e = false -> m (RNLook (RBack back_cls)) (mk_mst (e :: before) t cs) k = k (mk_mst (e :: before) t cs).
Proof. intros H. rewrite m_nlook, m_back, H. reflexivity. Qed.
Lemma nlook_fail before e t cs k : in_cls back_cls e = true -> m (RNLook (RBack back_cls)) (mk_mst (e :: before) t cs) k = None.
Proof. intros H. rewrite m_nlook, m_back, H. reflexivity. Qed.
Lemma href_ok h t before cs k y : (forall x, h = Some x -> written_url x) -> tail_shape t ->
  k (mk_mst (rev (href_seen h) ++ before) t (href_caps h t cs)) = Some y -> m (RSeq re_href re_end) (mk_mst before (href_seen h ++ t) cs) k = Some y.
Proof.
  intros Hh Ha Hk. pose proof (shape_tail t Ha) as Ht. rewrite m_seq. unfold re_href. destruct h as [x|]; cbn [href_seen maybe href_caps app rev] in *.
  2:{ rewrite skip_alt; [apply end_ok; auto|]. destruct t as [|c t]; [reflexivity|]. rewrite m_seq, m_cls, in_one. cbn [image_tail In] in Ht. destruct (N.eqb_spec c 58) as [->|]; [intuition discriminate|reflexivity]. }
  specialize (Hh x eq_refl). pose proof (url_in x Hh) as Hc. destruct Hh as (w & e & -> & He & Hw). apply url_back in He as Hb.
  apply take_alt. rewrite m_seq, m_cls, in_one, N.eqb_refl, m_seq, m_group. unfold re_plus. rewrite m_seq.
  assert (forall d, In d (w ++ [e]) -> in_cls href_cls d = true) as Hs by (intros d Hd; apply href_char; apply Hc in Hd; apply url_char in Hd; tauto).
  set (K := fun s2 : mst => m (RNLook (RBack back_cls)) _ _).
  assert (forall t', K (mk_mst (rev (w ++ [e]) ++ 58 :: before) t' cs) = m re_end (mk_mst (rev (w ++ [e]) ++ 58 :: before) t' ((5%nat, ((w ++ [e]) ++ t, t')) :: cs)) k) as EK.
  { intros t'. unfold K. cbn [m_before m_after m_caps]. rewrite rev_app_distr. cbn [rev app]. rewrite nlook_back by exact Hb. reflexivity. }
  assert (forall d b t', in_cls back_cls d = true -> K (mk_mst (d :: b) t' cs) = None) as EN.
  { intros d b t' Hd. unfold K. cbn [m_before m_after m_caps]. apply nlook_fail. exact Hd. }
  assert (K (mk_mst (rev (w ++ [e]) ++ 58 :: before) t cs) = Some y) as EY.
  { rewrite EK. apply end_ok; [exact Ht|]. rewrite <- app_assoc in Hk. exact Hk. }
  assert (exists c0 v, w ++ [e] = c0 :: v) as (c0 & v & Ev) by (destruct w as [|c0 w]; eexists _, _; reflexivity).
  clearbody K. rewrite Ev in *. cbn [app]. rewrite m_cls. rewrite Hs by (left; reflexivity).
  assert (forallb (in_cls href_cls) v = true) as Hv by (apply forallb_forall; intros d Hd; apply Hs; right; exact Hd). cbn [rev] in EY, EK. rewrite <- app_assoc in EY. cbn [app] in EY.
  destruct Ha as [->|[(r & ->)|[(r & ->)|(d & t' & -> & Hd & Ht')]]].
  - apply m_star_greedy; auto; exact I.
  - apply m_star_greedy; auto. reflexivity.
  - apply m_star_greedy; auto. reflexivity.
  - apply m_star_back; auto.
    + cbn [In] in Hd. destruct Hd as [<-|[<-|[]]]; reflexivity.
    + destruct t' as [|z t']; [exact I|]. apply ws_stops. exact Ht'.
    + apply EN. cbn [In] in Hd. destruct Hd as [<-|[<-|[]]]; reflexivity.
Qed.
Definition alt_seen (a : option str) : str := maybe (fun t => 40 :: t ++ [41]) a.
Definition alt_caps (a : option str) (rest : str) (cs : caps) : caps := match a with Some x => (4%nat, (x ++ 41 :: rest, 41 :: rest)) :: cs | None => cs end.
Lemma alt_ok a before rest cs k y : (forall x, a = Some x -> x <> [] /\ ~ In 41 x) -> k (mk_mst (rev (alt_seen a) ++ before) (33 :: rest) (alt_caps a (33 :: rest) cs)) = Some y ->
  m re_space (mk_mst before (alt_seen a ++ 33 :: rest) cs) (fun s => m re_alt s k) = Some y.
Proof.
  intros Ha Hk. destruct a as [x|]; cbn [alt_seen maybe alt_caps app rev] in *.
  2:{ rewrite m_skip by reflexivity. rewrite m_skip by reflexivity. exact Hk. }
  destruct (Ha x eq_refl) as [Hn H41]. rewrite m_skip by reflexivity. unfold re_alt. apply take_alt. rewrite m_seq, m_cls, in_one, N.eqb_refl, m_seq, m_group. unfold re_plus. rewrite m_seq.
  assert (forall d, In d x -> in_cls alt_cls d = true) as Hs.
  { intros d Hd. unfold in_cls, alt_cls. cbn [c_neg c_items existsb in_item]. destruct (N.leb_spec 41 d); destruct (N.leb_spec d 41); try reflexivity. exfalso. apply H41. replace 41 with d by lia. exact Hd. }
  destruct x as [|c x]; [congruence|]. cbn [app]. rewrite m_cls, Hs by (left; reflexivity). rewrite <- app_assoc.
  apply m_star_greedy; [apply forallb_forall; intros d Hd; apply Hs; right; exact Hd|reflexivity|]. cbn [m_before m_after m_caps app]. rewrite m_cls, in_one, N.eqb_refl.
  cbn [rev app] in Hk. rewrite rev_app_distr in Hk. cbn [rev app] in Hk. rewrite <- ?app_assoc in Hk. cbn [app] in Hk. exact Hk.
Qed.
Lemma src_char c : In c url_chars -> c <> 33 -> in_cls src_cls c = true.
Proof.
  intros H Hn. apply url_char in H as (Hw & _ & H). unfold in_cls, src_cls. cbn [c_neg c_items existsb in_item has_prop]. rewrite Hw. cbn [In] in H.
  destruct (N.leb_spec 40 c); destruct (N.leb_spec c 40); destruct (N.leb_spec 33 c); destruct (N.leb_spec c 33); try reflexivity; exfalso; first [apply Hn; lia|apply H; assert (c = 40) by lia; tauto].
Qed.
Lemma src_ok_match src before rest cs k y : src_ok src -> match rest with [] => True | c :: _ => c = 40 \/ c = 33 end ->
  k (mk_mst (rev src ++ before) rest ((3%nat, (src ++ rest, rest)) :: cs)) = Some y -> m (RGroup 3 (re_plus src_cls)) (mk_mst before (src ++ rest) cs) k = Some y.
Proof.
  intros (Hu & H33 & _) Hr Hk. rewrite m_group. unfold re_plus. rewrite m_seq.
  assert (forall d, In d src -> in_cls src_cls d = true) as Hs by (intros d Hd; apply src_char; [apply (url_in src Hu); exact Hd|intros ->; contradiction]).
  destruct (url_first src Hu) as (c & r & E & _). subst src. cbn [app]. rewrite m_cls, Hs by (left; reflexivity). apply m_star_greedy; [apply forallb_forall; intros d Hd; apply Hs; right; exact Hd| |].
  - destruct rest as [|d rest]; [exact I|]. destruct Hr as [->| ->]; reflexivity.
  - cbn [m_before m_after m_caps]. cbn [rev] in Hk. rewrite <- app_assoc in Hk. exact Hk.
Qed.
Lemma cls_dot src before rest cs k y : src_ok src -> match rest with [] => True | c :: _ => c = 40 \/ c = 33 end ->
  k (mk_mst before (src ++ rest) ((2%nat, (src ++ rest, src ++ rest)) :: cs)) = Some y ->
  m (RGroup 2 re_cls) (mk_mst before (src ++ rest) cs) (fun s => m re_dot s k) = Some y.
Proof.
  intros (Hu & H33 & c & r & E & Hc) Hr Hk. subst src. cbn [app] in *.
  assert (forallb (fun c => skips re_cls c && (skips re_dot c || (c =? 46))) src_first = true) as F by (vm_compute; reflexivity). rewrite forallb_forall in F. specialize (F c Hc). apply andb_prop in F as [F1 F2].
  rewrite m_group, m_skip by exact F1. cbn [m_before m_after m_caps]. apply orb_prop in F2 as [F2|F2]; [rewrite m_skip by exact F2; exact Hk|]. apply N.eqb_eq in F2. subst c.
  unfold re_dot. rewrite skip_alt; [exact Hk|]. rewrite m_seq, m_cls, in_one, N.eqb_refl. destruct r as [|d r].
  - destruct Hu as (a & e & Eu & He & _). destruct a as [|z a]; [injection Eu as <-|injection Eu as _ Eu; destruct a; discriminate]. exfalso. revert He. vm_compute. intuition discriminate.
  - cbn [app]. rewrite m_cls. assert (In d url_chars) as Hd by (apply (url_in _ Hu); right; left; reflexivity). apply url_char in Hd as (Hd & _). unfold in_cls, space_cls. cbn [c_neg c_items existsb in_item has_prop]. rewrite Hd. reflexivity.
Qed.
Lemma or_else {A} (o e : option A) y : o = Some y -> match o with Some x => Some x | None => e end = Some y.
Proof. intros ->. reflexivity. Qed.
Definition marks : list str := [u "<"; u "="; u ">"; u "&lt;"; u "&gt;"].
Lemma side_ok mark before rest k y : In mark marks -> k (mk_mst (rev mark ++ before) rest [(1%nat, (mark ++ rest, rest))]) = Some y -> m re_side (mk_mst before (mark ++ rest) []) k = Some y.
Proof.
  intros H Hk. unfold re_side. apply take_alt. rewrite m_group. cbn [marks In] in H. change (u "<") with [60] in *. change (u "=") with [61] in *. change (u ">") with [62] in *. change (u "&lt;") with [38; 108; 116; 59] in *. change (u "&gt;") with [38; 103; 116; 59] in *.
  destruct H as [<-|[<-|[<-|[<-|[<-|[]]]]]]; cbn [app rev] in *.
  1-3: rewrite m_alt, m_cls; change (in_cls side_cls _) with true; cbn [m_before m_after m_caps]; apply or_else; exact Hk.
  - rewrite m_alt_r, m_alt by reflexivity. apply or_else. unfold re_ent at 1. rewrite m_seq, m_cls, in_one, N.eqb_refl, m_seq, m_cls, in_one, N.eqb_refl, m_seq, m_cls, in_one, N.eqb_refl, m_cls, in_one, N.eqb_refl. cbn [m_before m_after m_caps]. exact Hk.
  - rewrite m_alt_r, m_alt_r by reflexivity. unfold re_ent at 1. rewrite m_seq, m_cls, in_one, N.eqb_refl, m_seq, m_cls, in_one, N.eqb_refl, m_seq, m_cls, in_one, N.eqb_refl, m_cls, in_one, N.eqb_refl. cbn [m_before m_after m_caps]. exact Hk.
Qed.
(** *** The whole image, [mark] being the side as it is written *)
Definition seen (mark : option str) (i : image) : str := 33 :: maybe (fun m => m) mark ++ im_src i ++ alt_seen (im_alt i) ++ 33 :: href_seen (im_href i).
Definition seen_caps (mark : option str) (i : image) (t : str) : caps :=
  let r5 := href_seen (im_href i) ++ t in let r3 := alt_seen (im_alt i) ++ 33 :: r5 in let r2 := im_src i ++ r3 in
  href_caps (im_href i) t (alt_caps (im_alt i) (33 :: r5) ((3%nat, (r2, r3)) :: (2%nat, (r2, r2)) :: match mark with Some m => [(1%nat, (m ++ r2, r2))] | None => [] end)).
Definition seen_ok (mark : option str) (i : image) : Prop :=
  (forall m, mark = Some m -> In m marks) /\ src_ok (im_src i) /\ (forall x, im_alt i = Some x -> x <> [] /\ ~ In 41 x) /\ (forall x, im_href i = Some x -> written_url x).
Lemma image_match mark i before t : seen_ok mark i -> tail_shape t ->
  match_at (rx_re IMAGE_RE) before (seen mark i ++ t) = Some (mk_mst (rev (seen mark i) ++ before) t (seen_caps mark i t)).
Proof.
  intros (Hm & Hs & Ha & Hh) Ht. unfold match_at. rewrite image_shape. unfold seen. set (R5 := href_seen (im_href i) ++ t). set (R3 := alt_seen (im_alt i) ++ 33 :: R5).
  assert ((33 :: maybe (fun m => m) mark ++ im_src i ++ alt_seen (im_alt i) ++ 33 :: href_seen (im_href i)) ++ t = 33 :: maybe (fun m => m) mark ++ im_src i ++ R3) as ->.
  { unfold R3, R5. cbn [app]. rewrite <- !app_assoc. cbn [app]. reflexivity. }
  rewrite m_seq, m_skip by reflexivity. rewrite m_seq, m_cls, in_one, N.eqb_refl, m_seq.
  assert (match R3 with [] => True | c :: _ => c = 40 \/ c = 33 end) as HR by (unfold R3; destruct (im_alt i); cbn [alt_seen maybe app]; auto).
  assert (forall b cs, cs = match mark with Some m => [(1%nat, (m ++ im_src i ++ R3, im_src i ++ R3))] | None => [] end -> b = rev (maybe (fun m => m) mark) ++ 33 :: before ->
    m (RSeq (RGroup 2 re_cls) (RSeq re_dot (RSeq (RGroup 3 (re_plus src_cls)) (RSeq re_space (RSeq re_alt (RSeq (RCls (ProofParse.one 33)) (RSeq re_href re_end))))))) (mk_mst b (im_src i ++ R3) cs) Some
    = Some (mk_mst (rev (33 :: maybe (fun m => m) mark ++ im_src i ++ alt_seen (im_alt i) ++ 33 :: href_seen (im_href i)) ++ before) t (seen_caps mark i t))) as G.
  { intros b cs -> ->. rewrite m_seq. 
    match goal with |- m (RGroup 2 re_cls) _ ?k = _ => change k with (fun s => m re_dot s (fun s1 => m (RSeq (RGroup 3 (re_plus src_cls)) (RSeq re_space (RSeq re_alt (RSeq (RCls (ProofParse.one 33)) (RSeq re_href re_end))))) s1 Some)) end.
    apply cls_dot; [exact Hs|exact HR|]. rewrite m_seq. apply src_ok_match; [exact Hs|exact HR|]. rewrite m_seq. unfold R3 at 1.
    match goal with |- m re_space _ ?k = _ => change k with (fun s => m re_alt s (fun s1 => m (RSeq (RCls (ProofParse.one 33)) (RSeq re_href re_end)) s1 Some)) end.
    apply alt_ok; [exact Ha|]. rewrite m_seq, m_cls, in_one, N.eqb_refl. unfold R5. apply href_ok; [exact Hh|exact Ht|]. f_equal. f_equal.
    - cbn [rev]. rewrite !rev_app_distr. cbn [rev]. rewrite <- !app_assoc. cbn [app]. reflexivity. }
  destruct mark as [mk|]; cbn [maybe app] in *.
  - apply side_ok; [apply Hm; reflexivity|]. apply G; reflexivity.
  - destruct Hs as (_ & _ & c & r & E & Hc). rewrite E. cbn [app]. assert (forallb (skips re_side) src_first = true) as F by (vm_compute; reflexivity). rewrite forallb_forall in F. rewrite m_skip by (apply F; exact Hc).
    rewrite E in G. cbn [app] in G. apply G; reflexivity.
Qed.
