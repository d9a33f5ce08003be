(** Documents of paragraphs with images. *)
From Verif Require ProofHtml.
From Verif Require Import Str Unicode Regex RegexParse RegexSnips RegexTheory RegexAuto RegexGroups Lib ModelBase ModelHtml ModelUrl
  ModelAttrs ModelInline ModelParser SpecRegex ProofRegex ProofCharref SpecParse ProofParse Logic ProofWalk ProofState SpecState ProofMemory ProofCache SpecLinks ProofLinks ProofDoc
  SpecPlain ProofPlain SpecNewlines ProofNewlines ProofParas ProofWeave ProofListText ProofTags ProofSections ProofBlocks ProofStateEx SpecDoc ProofDocument SpecText ProofText ProofSpan ProofSpanRe ProofSpanText SpecSpans ProofSpanDoc ProofSpanPage
  SpecSigned ProofSigned ProofSignedDoc ProofSignedPage ProofSignedEnd ProofSignedTop ProofPages ProofItems SpecCode ProofCode SpecLinked ProofLinkAuto ProofStock ProofStockDoc ProofCodeDoc ProofCodePage ProofLinked ProofLinkedDoc SpecImages ProofImageAuto ProofImages ProofImaged.
#[local] Arguments u : simpl never.
(** ** Where there is no image *)
Definition open_cls : cls := mk_cls false [CRange 33 33; CRange 91 91; CRange 123 123].
Lemma image_miss before c rest : in_cls open_cls c = false -> match_at (rx_re IMAGE_RE) before (c :: rest) = None.
Proof.
  intros H. unfold match_at. rewrite image_shape, m_seq. assert (c <> 33 /\ c <> 91 /\ c <> 123) as (H1 & H2 & H3) by (repeat split; intros ->; discriminate H).
  unfold re_pre. rewrite skip_alt; [rewrite m_seq, m_cls, in_one; apply N.eqb_neq in H1; rewrite H1; reflexivity|]. rewrite m_cls. unfold in_cls. cbn [c_neg c_items existsb in_item].
  destruct (N.leb_spec 91 c); destruct (N.leb_spec c 91); destruct (N.leb_spec 123 c); destruct (N.leb_spec c 123); try reflexivity; exfalso; lia.
Qed.
Lemma image_miss_bang before rest : match rest with [] => True | c :: _ => c = 32 \/ c = 10 end -> match_at (rx_re IMAGE_RE) before (33 :: rest) = None.
Proof.
  intros H. destruct rest as [|c rest]; [reflexivity|]. unfold match_at. rewrite image_shape, m_seq, m_skip by reflexivity. rewrite m_seq, m_cls, in_one, N.eqb_refl, m_seq.
  destruct H as [->| ->]; (rewrite m_skip by (vm_compute; reflexivity)); rewrite m_seq, m_group, m_skip by (vm_compute; reflexivity); cbn [m_before m_after m_caps]; rewrite m_seq, m_skip by (vm_compute; reflexivity); rewrite m_seq, m_group; unfold re_plus; rewrite m_seq, m_cls; reflexivity.
Qed.
Definition still_re : list re := [RCls (ch 91); RCls (ch 123); RSeq (RCls (ch 33)) (RCls (mk_cls true [CRange 32 32; CRange 10 10]))].
Definition still (t : str) : Prop := forall r, In r still_re -> no_match r t.
Lemma piece_still A t : A = before_code \/ A = between_code \/ A = after_code -> accepts A t -> still t.
Proof.
  assert (forallb (fun A => forallb (never A) still_re) [before_code; between_code; after_code] = true) as F by (vm_compute; reflexivity). rewrite forallb_forall in F.
  intros HA H r Hr. eapply never_in; [|exact H|exact Hr]. apply F. cbn [In]. intuition (subst; auto).
Qed.
Lemma pass_image w before rest : still w -> rest = [] \/ w = [] \/ closes w -> forall a c b, w = a ++ c :: b -> match_at (rx_re IMAGE_RE) (rev a ++ before) (c :: b ++ rest) = None.
Proof.
  intros Hs Hr a c b E. destruct (in_cls open_cls c) eqn:Ec; [|apply image_miss; exact Ec].
  assert (~ In 91 w /\ ~ In 123 w) as [N1 N2] by (split; apply no_match_ch, Hs; cbn [In still_re]; tauto).
  assert (c = 33) as ->.
  { unfold in_cls, open_cls in Ec. cbn [c_neg c_items existsb in_item] in Ec. destruct (N.eq_dec c 91) as [->|]; [exfalso; apply N1; rewrite E; apply in_or_app; right; left; reflexivity|]. destruct (N.eq_dec c 123) as [->|]; [exfalso; apply N2; rewrite E; apply in_or_app; right; left; reflexivity|].
    destruct (N.leb_spec 33 c); destruct (N.leb_spec c 33); destruct (N.leb_spec 91 c); destruct (N.leb_spec c 91); destruct (N.leb_spec 123 c); destruct (N.leb_spec c 123); cbn in Ec; try discriminate; lia. }
  apply image_miss_bang. destruct b as [|d b].
  - destruct Hr as [->|[->|(v & e & Ev & He)]]; [exact I|destruct a; discriminate|]. rewrite Ev in E. apply app_inj_tail in E as [_ E]. subst e. intuition discriminate.
  - cbn [app]. assert (no_match (RSeq (RCls (ch 33)) (RCls (mk_cls true [CRange 32 32; CRange 10 10]))) w) as N by (apply Hs; cbn [In still_re]; tauto).
    specialize (N a (33 :: d :: b) E). unfold match_at in N. rewrite m_seq, m_cls in N. change (in_cls (ch 33) 33) with true in N. cbn iota in N. rewrite m_cls in N. unfold in_cls in N. cbn [c_neg c_items existsb in_item] in N.
    destruct (N.eq_dec d 32) as [->|]; auto. destruct (N.eq_dec d 10) as [->|]; auto. exfalso.
    destruct (N.leb_spec 32 d); destruct (N.leb_spec d 32); destruct (N.leb_spec 10 d); destruct (N.leb_spec d 10); cbn in N; try discriminate; lia.
Qed.
Section Doc.
Variables (W : world) (T : textile).
Hypothesis uid_simple : simple_uid (t_uid T).
Hypothesis no_sizes : t_get_sizes T = false.
Notation tok n := (fragment_token T n).
Notation br := (br_tag T).
Notation fb := (final_br T).
(** ** All images *)
Definition seen_text (l : list placed) : str := flat_map (fun p => image_seen T (pl_image p) ++ pl_text p) l.
Fixpoint shown_text (n : N) (l : list placed) : str := match l with [] => [] | p :: l' => tok (n + size_of p) ++ pl_text p ++ shown_text (n + size_of p) l' end.
Fixpoint shown_kept (n : N) (l : list placed) : list entry := match l with [] => [] | p :: l' => entries_of T p n ++ shown_kept (n + size_of p) l' end.
Lemma follows_placed p l : images_follow W T (p :: l) -> placed_ok W T p /\ (accepts between_code (pl_text p) \/ accepts after_code (pl_text p)) /\ (l <> [] -> accepts between_code (pl_text p)) /\ (l = [] -> accepts after_code (pl_text p)) /\ images_follow W T l.
Proof. cbn [images_follow]. intros (H1 & H2 & H3). split; [exact H1|]. destruct l as [|q l]; (split; [auto|]); (split; [congruence||auto|]); (split; [congruence||auto|exact H3]). Qed.
Lemma label_inert x : accepts label x -> ~ In 10 x -> forall c, In c x -> inert_char c.
Proof.
  intros H H10 c Hc. assert (forall r, In r [RCls (ch 9); RCls (ch 13)] -> no_match r x) as N by (intros r Hr; eapply never_in; [|exact H|exact Hr]; vm_compute; reflexivity).
  assert (forall d, In d [34; 38; 60; 62] -> c <> d) as N2. { intros d Hd ->. apply (label_char x d H); [|exact Hc]. change label_chars with [34; 40; 91; 123; 41; 93; 125; 60; 62; 36; 38; 124; 94; 42; 64; 61]. cbn [In] in *. tauto. }
  assert (c <> 9 /\ c <> 13) as [N9 N13] by (split; intros ->; revert Hc; apply no_match_ch, N; cbn [In]; tauto).
  assert (c <> 10) as N10 by (intros ->; contradiction). pose proof (N2 34 ltac:(cbn [In]; tauto)) as Q1. pose proof (N2 38 ltac:(cbn [In]; tauto)) as Q2. pose proof (N2 60 ltac:(cbn [In]; tauto)) as Q3. pose proof (N2 62 ltac:(cbn [In]; tauto)) as Q4.
  split; [|exact Q1]. unfold encode_char. apply N.eqb_neq in Q1, Q2, Q3, Q4, N9, N10, N13. rewrite ?Q1, ?Q2, ?Q3, ?Q4, ?N9, ?N10, ?N13. reflexivity.
Qed.
Lemma placed_inert p : placed_ok W T p -> alt_inert (pl_image p).
Proof. intros ((_ & _ & Ha & _) & _) t E. destruct (Ha t E). apply label_inert; auto. Qed.
Lemma placed_seen p : placed_ok W T p -> seen_ok (option_map (side_seen T) (im_side (pl_image p))) (pl_image p).
Proof.
  intros ((Hs & _ & Ha & Hh) & _). split; [|split; [exact Hs|split]].
  - intros m E. destruct (im_side (pl_image p)) as [sd|]; [|discriminate]. injection E as <-. unfold ProofImages.marks, side_seen. destruct sd; [destruct (t_restricted T)| |destruct (t_restricted T)]; cbn [In]; tauto.
  - intros x E. destruct (Ha x E) as [Hx _]. split; [destruct (label_ends x Hx) as (c & r & -> & _); discriminate|]. apply (label_char x 41 Hx). vm_compute. tauto.
  - intros x E. apply (Hh x E).
Qed.
Lemma entries_many p n : many (entries_of T p n) = size_of p.
Proof. unfold entries_of, size_of, many. destruct (im_href (pl_image p)); reflexivity. Qed.
Lemma images_yield l : forall before s, images_follow W T l ->
  yields (rx_re IMAGE_RE) (f_image W T) before (seen_text l) s (shown_text (ps_ref_index s) l) (stocks T (shown_kept (ps_ref_index s) l) s).
Proof.
  induction l as [|p l IH]; intros before s Hl; [apply yields_nil; reflexivity|]. apply follows_placed in Hl as (Hp & Ht & Hm & He & Hl). pose proof Hp as (_ & _ & _ & Htl).
  unfold seen_text. cbn [flat_map]. fold (seen_text l). cbn [shown_text shown_kept]. rewrite stocks_app, <- app_assoc.
  set (s1 := stocks T (entries_of T p (ps_ref_index s)) s). assert (ps_ref_index s1 = ps_ref_index s + size_of p) as Ei.
  { destruct (stocks_own T (entries_of T p (ps_ref_index s)) s) as (_ & _ & _ & _ & E & _). unfold s1. rewrite E, entries_many. reflexivity. }
  assert (tail_shape (pl_text p ++ seen_text l) /\ (seen_text l = [] \/ pl_text p = [] \/ closes (pl_text p))) as [Ht2 Hc].
  { pose proof (tail_space _ Ht Htl) as Hsh. destruct l as [|q l]; [unfold seen_text; cbn [flat_map]; rewrite app_nil_r; auto|]. assert (closes (pl_text p)) as C by (apply ends_between, Hm; discriminate). split; [|auto].
    destruct Hsh as [E|[(r & E)|[(r & E)|(d & t' & E & Hd & H')]]]; rewrite E in *; cbn [app].
    - destruct C as (v & d & F & _); destruct v; discriminate.
    - right. left. eauto.
    - right. right. left. eauto.
    - right. right. right. exists d, (t' ++ seen_text (q :: l)). split; [reflexivity|]. split; [exact Hd|]. destruct t' as [|c t']; [|exact H']. destruct C as (v & e & F & Hx). destruct v as [|z v]; [injection F as <-|destruct v; discriminate]. cbn [In] in Hd. exfalso. destruct Hx as [->| ->]; intuition discriminate. }
  eapply yields_hit with (st := mk_mst (rev (image_seen T (pl_image p)) ++ before) (pl_text p ++ seen_text l) (seen_caps (option_map (side_seen T) (im_side (pl_image p))) (pl_image p) (pl_text p ++ seen_text l))); [discriminate| |reflexivity|apply (f_image_ok W T uid_simple no_sizes); [exact Hp|apply placed_inert; exact Hp]|].
  - unfold image_seen. apply image_match; [apply placed_seen; exact Hp|exact Ht2].
  - rewrite <- Ei. apply yields_pass; [apply pass_image; [destruct Ht as [Ht|Ht]; [apply (piece_still between_code)|apply (piece_still after_code)]; auto|exact Hc]|]. apply IH. exact Hl.
Qed.
(** ** Reading *)
Definition ishape (a : str) (l : list placed) : Prop := (l = [] /\ accepts paragraph a) \/ (l <> [] /\ accepts before_code a /\ images_follow W T l).
Lemma pictured_shape p : pictured_ok W T p -> ishape (fst p) (snd p).
Proof. destruct p as [a [|q l]]; unfold pictured_ok; cbn [fst snd]; intros H; [left; auto|right]. destruct H as [H1 H2]. split; [discriminate|]. split; [exact H1|exact H2]. Qed.
Lemma image_around : incl around_code (au_trans written_image) /\ incl (20 :: 21 :: au_final paragraph)%nat (au_final written_image) /\ au_start written_image = 0%nat.
Proof. split; [|split; [apply incl_refl|reflexivity]]. unfold written_image. cbn [au_trans]. apply incl_here. Qed.
Lemma alt_reads x rest : forall q, Suf label q x -> Suf written_image 44 rest -> Suf written_image (q + 100) (x ++ 41 :: rest).
Proof.
  intros q H Hr. induction H as [q Hq|q k q' c x Ht Hc Hs IH].
  - eapply SufCons with (l := ch 41) (q' := 44%nat); [|reflexivity|exact Hr]. unfold written_image. cbn [au_trans]. do 5 apply in_or_app, or_intror. apply in_or_app. left. apply in_flat_map. exists (q + 100)%nat. split; [|left; reflexivity].
    unfold label in Hq. cbn [au_final In] in Hq. cbn [In]. intuition (subst; auto 10).
  - cbn [app]. eapply SufCons with (l := k) (q' := (q' + 100)%nat); [|exact Hc|exact IH]. unfold written_image. cbn [au_trans]. do 4 apply in_or_app, or_intror. apply in_or_app. left.
    apply in_map_iff. exists (q, k, q'). split; [reflexivity|exact Ht].
Qed.
Lemma tr_side tr : In tr [(40, one_of (u "<=>"), 41); (40, ch 38, 60); (60, one_of (u "lg"), 61); (61, ch 116, 62); (62, ch 59, 41)]%nat -> In tr (au_trans written_image).
Proof. intros H. unfold written_image. cbn [au_trans]. do 2 apply in_or_app, or_intror. apply in_or_app. left. exact H. Qed.
Lemma tr_src tr : In tr [(40, one_of src_first, 42); (41, one_of src_first, 42); (42, one_of src_chars, 42); (42, ch 40, 101)]%nat -> In tr (au_trans written_image).
Proof. intros H. unfold written_image. cbn [au_trans]. do 3 apply in_or_app, or_intror. apply in_or_app. left. exact H. Qed.
Lemma tr_end tr : In tr [(42, ch 33, 20); (44, ch 33, 20); (42, ch 33, 46); (44, ch 33, 46); (46, ch 58, 43); (43, one_of url_chars, 43); (43, one_of url_last, 20)]%nat -> In tr (au_trans written_image).
Proof. intros H. unfold written_image. cbn [au_trans]. do 6 apply in_or_app, or_intror. exact H. Qed.
Lemma href_reads h rest q : q = 42%nat \/ q = 44%nat -> (forall x, h = Some x -> written_url x) -> Suf written_image 20 rest -> Suf written_image q (33 :: href_seen h ++ rest).
Proof.
  intros Hq Hh Hr. destruct h as [v|]; cbn [href_seen maybe app].
  2:{ apply SufCons with (l := ch 33) (q' := 20%nat); [apply tr_end; destruct Hq as [->| ->]; cbn [In]; tauto|reflexivity|exact Hr]. }
  destruct (Hh v eq_refl) as (a & c & -> & Hc & Ha). apply SufCons with (l := ch 33) (q' := 46%nat); [apply tr_end; destruct Hq as [->| ->]; cbn [In]; tauto|reflexivity|].
  apply SufCons with (l := ch 58) (q' := 43%nat); [apply tr_end; cbn [In]; tauto|reflexivity|]. rewrite <- app_assoc.
  eapply loop_ok; [apply tr_end; do 5 right; left; reflexivity|apply forallb_forall; intros d Hd; apply in_one_of; auto|]. cbn [app].
  eapply SufCons with (q' := 20%nat); [apply tr_end; do 6 right; left; reflexivity|apply in_one_of; exact Hc|exact Hr].
Qed.
Lemma src_reads src rest q : src_ok src -> q = 40%nat \/ q = 41%nat -> Suf written_image 42 rest -> Suf written_image q (src ++ rest).
Proof.
  intros (Hu & H33 & c & r & -> & Hc) Hq Hr. cbn [app]. apply SufCons with (l := one_of src_first) (q' := 42%nat); [apply tr_src; destruct Hq as [->| ->]; cbn [In]; tauto|apply in_one_of; exact Hc|].
  eapply loop_ok; [apply tr_src; right; right; left; reflexivity| |exact Hr]. apply forallb_forall. intros d Hd. apply in_one_of.
  assert (In d url_chars) as Hd' by (apply (url_in _ Hu); right; exact Hd). assert (forallb (fun d => existsb (N.eqb d) src_chars || (d =? 33)) url_chars = true) as F by (vm_compute; reflexivity).
  rewrite forallb_forall in F. apply F in Hd'. apply orb_prop in Hd' as [E|E]; [apply existsb_exists in E as (x & E1 & E2); apply N.eqb_eq in E2 as ->; exact E1|]. apply N.eqb_eq in E. subst d. exfalso. apply H33. right. exact Hd.
Qed.
Lemma image_reads p rest q : In q [0; 1; 8]%nat -> placed_ok W T p -> Suf written_image 20 rest -> Suf written_image q (image_seen T (pl_image p) ++ rest).
Proof.
  intros Hq ((Hs & _ & Ha & Hh) & _) Hr. destruct p as [i sy hy t]. cbn [pl_image] in *. unfold image_seen, seen. cbn [app].
  apply SufCons with (l := ch 33) (q' := 40%nat); [unfold written_image; cbn [au_trans]; apply in_or_app, or_intror, in_or_app; left; cbn [In] in *; intuition (subst; auto)|reflexivity|]. rewrite <- !app_assoc.
  assert (Suf written_image 42 (alt_seen (im_alt i) ++ (33 :: href_seen (im_href i)) ++ rest)) as R.
  { cbn [app]. assert (forall x, im_href i = Some x -> written_url x) as Hh' by (intros x E; apply (Hh x E)). destruct (im_alt i) as [x|]; cbn [alt_seen maybe app]; [|apply href_reads; auto].
    apply SufCons with (l := ch 40) (q' := 101%nat); [apply tr_src; cbn [In]; tauto|reflexivity|]. rewrite <- app_assoc. cbn [app]. apply (alt_reads _ _ 1%nat); [apply (Ha x eq_refl)|]. apply href_reads; auto. }
  destruct (im_side i) as [sd|]; cbn [option_map maybe app]; [|apply src_reads; auto].
  assert (forall z, Suf written_image 41 z -> Suf written_image 40 (side_seen T sd ++ z)) as S1; [|apply S1, src_reads; auto].
  intros z Hz. assert (forall c, In c (u "<=>") -> Suf written_image 40 (c :: z)) as S2.
  { intros c Hc. apply SufCons with (l := one_of (u "<=>")) (q' := 41%nat); [apply tr_side; cbn [In]; tauto|apply in_one_of; exact Hc|exact Hz]. }
  assert (forall c, In c (u "lg") -> Suf written_image 40 (38 :: c :: 116 :: 59 :: z)) as S3.
  { intros c Hc. apply SufCons with (l := ch 38) (q' := 60%nat); [apply tr_side; cbn [In]; tauto|reflexivity|]. apply SufCons with (l := one_of (u "lg")) (q' := 61%nat); [apply tr_side; cbn [In]; tauto|apply in_one_of; exact Hc|].
    apply SufCons with (l := ch 116) (q' := 62%nat); [apply tr_side; cbn [In]; tauto|reflexivity|]. apply SufCons with (l := ch 59) (q' := 41%nat); [apply tr_side; cbn [In]; tauto|reflexivity|exact Hz]. }
  unfold side_seen. destruct sd; [destruct (t_restricted T)| |destruct (t_restricted T)].
  - apply (S3 108). left. reflexivity.
  - apply (S2 60). left. reflexivity.
  - apply (S2 61). right. left. reflexivity.
  - apply (S3 103). right. left. reflexivity.
  - apply (S2 62). right. right. left. reflexivity.
Qed.
Lemma source_reads_i l : forall q, In q [0; 1; 8]%nat -> l <> [] -> images_follow W T l -> Suf written_image q (seen_text l).
Proof.
  destruct image_around as (I1 & I2 & _). induction l as [|p l IH]; intros q Hq Hn Hl; [congruence|]. apply follows_placed in Hl as (Hp & _ & Hm & He & Hl).
  unfold seen_text. cbn [flat_map]. fold (seen_text l). rewrite <- app_assoc. apply image_reads; auto. destruct l as [|p' l].
  - unfold seen_text. cbn [flat_map]. rewrite app_nil_r. rewrite <- (app_nil_r (pl_text p)). apply (ProofParas.tail_ok after_code); [apply He; reflexivity|exact I1|]. intros g Hg. constructor. apply I2. exact Hg.
  - apply (ProofParas.tail_ok between_code); [apply Hm; discriminate|exact I1|]. intros g Hg. apply IH; auto; [|discriminate]. unfold between_code in Hg. cbn [au_final In] in *. tauto.
Qed.
Lemma source_accepts_i a l : ishape a l -> accepts written_image (a ++ seen_text l).
Proof.
  destruct image_around as (I1 & I2 & I3). intros [[-> H]|(Hn & Ha & Hl)].
  - unfold accepts. rewrite I3. apply (ProofParas.tail_ok paragraph); [exact H| |].
    + intros x Hx. apply I1. unfold around_code. apply in_or_app. left. exact Hx.
    + intros g Hg. constructor. apply I2. right. right. exact Hg.
  - unfold accepts. rewrite I3. apply (ProofParas.tail_ok before_code); [exact Ha|exact I1|]. intros g Hg. apply source_reads_i; auto.
Qed.
Lemma stage_reads_i l : forall n q, In q [0; 1; 8]%nat -> l <> [] -> images_follow W T l -> Suf shelved_code q (shown_text n l).
Proof.
  destruct (around_in shelved_code) as (I1 & I2 & _); auto.
  induction l as [|p l IH]; intros n q Hq Hn Hl; [congruence|]. apply follows_placed in Hl as (_ & _ & Hm & He & Hl). cbn [shown_text]. apply tok_item; auto. destruct l as [|p' l].
  - apply (ProofParas.tail_ok after_code); [apply He; reflexivity|exact I1|]. intros g Hg. constructor. apply I2. exact Hg.
  - apply (ProofParas.tail_ok between_code); [apply Hm; discriminate|exact I1|]. intros g Hg. apply IH; auto; [|discriminate]. unfold between_code in Hg. cbn [au_final In] in *. tauto.
Qed.
Lemma stage_accepts_i a l n : ishape a l -> accepts shelved_code (a ++ shown_text n l).
Proof.
  intros [[-> H]|(Hn & Ha & Hl)]; [cbn [shown_text]; rewrite app_nil_r; apply paragraph_in; auto|].
  destruct (around_in shelved_code) as (I1 & _ & I3); auto. unfold accepts. rewrite I3. apply (ProofParas.tail_ok before_code); [exact Ha|exact I1|]. intros g Hg. apply stage_reads_i; auto.
Qed.
(** ** The inline stages *)
Hypothesis images_on : t_noimage T = false.
Lemma early_images fuel g t s : (forall r, In r image_rx -> no_match (rx_re r) t) ->
  graf_body W T fuel g t s = bind (links W T fuel t) (after_links W T g) s.
Proof.
  intros N. unfold graf_body. 
  assert ((if t_lite T then ret t else no_textile T t) s = Ret t s) as E by (destruct (t_lite T); [reflexivity|]; unfold no_textile, bind; rewrite !no_match_replaceM by (apply N; unfold image_rx; apply in_or_app; cbn [In early_rx]; tauto); reflexivity).
  unfold bind at 1. rewrite E. clear E.
  assert ((if t_lite T then ret t else code T t) s = Ret t s) as E by (destruct (t_lite T); [reflexivity|]; unfold code, bind; rewrite !no_match_replaceM by (apply N; unfold image_rx; apply in_or_app; cbn [In early_rx]; tauto); reflexivity).
  unfold bind at 1. rewrite E. clear E.
  assert (get_html_comments T t s = Ret t s) as E by (apply no_match_replaceM, N; unfold image_rx; apply in_or_app; cbn [In early_rx]; tauto). unfold bind at 1. rewrite E. clear E.
  assert (get_refs T t s = Ret t s) as E by (unfold get_refs; destruct (t_restricted T); apply no_match_replaceM, N; unfold image_rx; apply in_or_app; cbn [In early_rx]; tauto). unfold bind at 1. rewrite E. clear E.
  assert (glyph_quoted_quote T t s = Ret t s) as E by (apply no_match_replaceM, N; unfold image_rx; apply in_or_app; cbn [In early_rx]; tauto). unfold bind at 1. rewrite E. clear E. reflexivity.
Qed.
Lemma graf_images fuel n a l s : (1 < fuel)%nat -> uid_free T (a ++ seen_text l) -> ishape a l -> @cache_ok (own T) (ps_cache s) -> ps_borrowed s = false ->
  exists c, @cache_ok (own T) c /\ graf_n W T fuel (S n) (a ++ seen_text l) s = Ret (a ++ shown_text (ps_ref_index s) l) (stocks T (shown_kept (ps_ref_index s) l) (set_cache c s)).
Proof.
  intros Hf Huf H Hc Hb. set (t := a ++ seen_text l) in *. set (t2 := a ++ shown_text (ps_ref_index s) l).
  assert (quiet T t2) as Q by (apply (shelved_quiet T uid_simple); apply stage_accepts_i; exact H).
  destruct H as [[-> H]|(Hn & Ha & Hl)].
  { destruct (graf_quiet W T (uid_simple_plain _ uid_simple) fuel n t2 ltac:(lia) Q s Hc Hb) as (c & Hc2 & E). exists c. split; [exact Hc2|]. exact E. }
  pose proof (source_accepts_i a l (or_intror (conj Hn (conj Ha Hl)))) as HA. fold t in HA.
  assert (forall r, In r image_rx -> no_match (rx_re r) t) as N by (intros r Hr; eapply never_rx; [exact written_image_rx|exact HA|exact Hr]).
  destruct (links_inert W T (uid_simple_plain _ uid_simple) fuel t ltac:(lia)) with (s := s) as (c1 & Hc1 & E1); auto.
  { apply N. unfold image_rx. apply in_or_app. cbn [In]. tauto. } { apply needle_free. exact Huf. }
  set (s0 := set_cache c1 s) in *. set (s1 := stocks T (shown_kept (ps_ref_index s) l) s0).
  assert (ModelInline.image W T t s0 = Ret t2 s1) as E2.
  { unfold ModelInline.image. apply yields_all. unfold t, t2. change (ps_ref_index s) with (ps_ref_index s0). apply yields_pass; [|apply images_yield; exact Hl].
    apply pass_image; [apply (piece_still before_code); auto|]. right. apply ends_before. exact Ha. }
  destruct (stocks_own T (shown_kept (ps_ref_index s) l) s0) as (P1 & P2 & _ & _ & _ & P6). fold s1 in P1, P2, P6.
  destruct (images_quiet T (graf_n W T fuel n) t2 Q s1) as (c & Hc2 & E). { rewrite P1. exact Hc1. } { rewrite P2. exact Hb. }
  exists c. split; [exact Hc2|]. cbn [graf_n]. rewrite early_images by exact N. unfold bind. rewrite E1. unfold after_links. rewrite images_on. unfold bind. rewrite E2, E. f_equal. unfold s1. rewrite <- P6. reflexivity.
Qed.
(** ** The images come back *)
Definition img_front (i : image) : str :=
  u "<img" ++ (if by_class T then [] else maybe (fun s => attr_text (u "align") (side_name s)) (im_side i))
  ++ attr_text (u "alt") (maybe (fun t => t) (im_alt i))
  ++ (if by_class T then maybe (fun s => attr_text (u "class") (u "align-" ++ side_name s)) (im_side i) else []) ++ u " src=".
Definition img_rear (i : image) : str := maybe (fun t => attr_text (u "title") t) (im_alt i) ++ u " />".
Lemma img_parts i v : img_of T i v = img_front i ++ 34 :: v ++ 34 :: img_rear i.
Proof.
  unfold img_of, img_front, img_rear. rewrite <- !app_assoc. do 4 f_equal. unfold attr_text at 1. change (u " src=") with (u " " ++ u "src" ++ u "="). change (u "=""") with (u "=" ++ [34]). change (u """") with [34]. rewrite <- !app_assoc. reflexivity.
Qed.
Lemma free_quoted a k x b : uid_free T a -> ~ In 58 k -> uid_free T x -> uid_free T b -> (b = [] \/ exists c r, b = c :: r /\ cutter c) -> uid_free T (a ++ attr_text k x ++ b).
Proof.
  intros Ha Hk Hx Hb _. unfold attr_text. change (u " ") with [32]. change (u "=""") with (61 :: [34]). change (u """") with [34]. rewrite <- !app_assoc. cbn [app].
  assert (cutter 32 /\ cutter 61) as [C1 C2] by (split; split; reflexivity).
  apply (free_glue T uid_simple); [exact C1|exact Ha|]. rewrite <- ?app_assoc. cbn [app]. apply (free_glue T uid_simple); [exact C2|apply uid_no_colon; auto|]. apply (free_glue T uid_simple 34 [] _ cutter_34); [apply uid_no_colon; auto|].
  apply (free_glue T uid_simple); [apply cutter_34|exact Hx|exact Hb].
Qed.
Lemma side_free s : uid_free T (side_name s) /\ uid_free T (u "align-" ++ side_name s).
Proof. split; (apply uid_no_colon; [exact uid_simple|]); destruct s; vm_compute; intuition discriminate. Qed.
Lemma no_colon_free t : existsb (N.eqb 58) t = false -> uid_free T t.
Proof. intros H. apply uid_no_colon; [exact uid_simple|]. intros F. assert (existsb (N.eqb 58) t = true); [apply existsb_exists; exists 58; split; [exact F|reflexivity]|congruence]. Qed.
Definition alt_free (i : image) : Prop := forall t, im_alt i = Some t -> uid_free T t.
Lemma front_free i : alt_free i -> uid_free T (img_front i).
Proof.
  intros Ha. assert (uid_free T (maybe (fun t => t) (im_alt i))) as Hx by (destruct (im_alt i) as [t|] eqn:E; cbn [maybe]; [apply Ha; exact E|apply no_colon_free; reflexivity]).
  assert (forall a k x, uid_free T a -> existsb (N.eqb 58) k = false -> uid_free T x -> uid_free T (a ++ attr_text k x)) as G.
  { intros a k x H1 H2 H3. rewrite <- (app_nil_r (attr_text k x)). apply free_quoted; auto; [intros F; assert (existsb (N.eqb 58) k = true); [apply existsb_exists; exists 58; split; [exact F|reflexivity]|congruence]|apply no_colon_free; reflexivity]. }
  unfold img_front. change (u " src=") with (32 :: u "src="). rewrite !app_assoc. apply (free_glue T uid_simple); [split; reflexivity| |apply no_colon_free; reflexivity].
  assert (uid_free T (u "<img")) as H0 by (apply no_colon_free; reflexivity). destruct (by_class T); destruct (im_side i) as [sd|]; cbn [maybe]; rewrite ?app_nil_r; repeat (apply G; [|vm_compute; reflexivity|]); auto; apply side_free.
Qed.
Lemma rear_free i : alt_free i -> uid_free T (img_rear i).
Proof.
  intros Ha. unfold img_rear. destruct (im_alt i) as [t|] eqn:E; cbn [maybe]; [|apply no_colon_free; reflexivity]. apply (free_quoted []); [apply no_colon_free; reflexivity|vm_compute; intuition discriminate|apply Ha; exact E|apply no_colon_free; reflexivity|]. right. eexists _, _. split; [reflexivity|]. split; reflexivity.
Qed.
Lemma placed_free p : placed_ok W T p -> alt_free (pl_image p).
Proof. intros ((_ & _ & Ha & _) & _) t E. apply label_free; auto. apply (Ha t E). Qed.
Lemma image_back urls n p : placed_ok W T p -> served urls (urls_at n (entries_of T p n)) -> urled T urls (img_kept T p n) (placed_html T p).
Proof.
  intros Hp Hu. pose proof (placed_free p Hp) as Ha. unfold img_kept, placed_html, entries_of in *. rewrite img_is. destruct p as [i sy hy t]. cbn [pl_image pl_src pl_href] in *.
  destruct (im_href i) as [h|] eqn:Eh; cbn [urls_at app] in Hu.
  - destruct (Hu (n + 1) (entities true sy) (or_introl eq_refl)) as [U1 U2]. destruct (Hu (n + 1 + 1) (entities true hy) (or_intror (or_introl eq_refl))) as [U3 U4]. replace (n + 1 + 1) with (n + 2) in * by lia.
    assert (forall a b, u "<a href=""" ++ a ++ u """>" ++ b ++ u "</a>" = u "<a href=" ++ 34 :: a ++ 34 :: 62 :: b ++ u "</a>") as Q by (intros; change (u "<a href=""") with (u "<a href=" ++ [34]); rewrite <- app_assoc; reflexivity).
    unfold a_of. rewrite !Q. apply ur_url; auto; [apply no_colon_free; reflexivity|]. 
    rewrite !img_parts. 
    assert (forall v, 62 :: (img_front i ++ 34 :: v ++ 34 :: img_rear i) ++ u "</a>" = (62 :: img_front i) ++ 34 :: v ++ 34 :: img_rear i ++ u "</a>") as Q2 by (intros; cbn [app]; repeat (rewrite <- app_assoc; cbn [app]); reflexivity).
    rewrite !Q2. apply ur_url; auto.
    + apply (free_glue T uid_simple 62 [] _ cutter_62); [apply no_colon_free; reflexivity|apply front_free; exact Ha].
    + apply ur_plain. change (u "</a>") with (60 :: u "/a>"). apply (free_glue T uid_simple); [apply cutter_60|apply rear_free; exact Ha|apply no_colon_free; reflexivity].
  - destruct (Hu (n + 1) (entities true sy) (or_introl eq_refl)) as [U1 U2]. rewrite !img_parts. apply ur_url; auto; [apply front_free; exact Ha|]. apply ur_plain, rear_free. exact Ha.
Qed.
Definition shown_body (x : str) (l : list placed) : str := flat_map (fun p => placed_html T p ++ breaks x (pl_text p)) l.
Lemma shelf_entries p n z : shelf_at T n (entries_of T p n ++ z) = (tok (n + size_of p), img_kept T p n) :: shelf_at T (n + size_of p) z.
Proof.
  unfold entries_of, size_of, img_kept. destruct (im_href (pl_image p)); cbn [app shelf_at].
  - replace (n + 1 + 1 + 1) with (n + 3) by lia. reflexivity.
  - replace (n + 1 + 1) with (n + 2) by lia. reflexivity.
Qed.
Lemma images_back shelf urls l : forall n, images_follow W T l -> incl (shelf_at T n (shown_kept n l)) shelf -> served urls (urls_at n (shown_kept n l)) -> comes T shelf urls (breaks br (shown_text n l)) (shown_body br l).
Proof.
  assert (forall i, breaks br (tok i) = tok i) as B by (intros i; apply breaks_one_line, (tok_without T uid_simple); reflexivity).
  induction l as [|p l IH]; intros n Hl Hn Hm; [apply comes_nil; auto|]. apply follows_placed in Hl as (Hp & Ht & Hb & He & Hl').
  cbn [shown_text shown_kept] in *. rewrite shelf_entries in Hn. rewrite urls_app, entries_many in Hm.
  assert (comes T shelf urls (tok (n + size_of p)) (placed_html T p)) as C.
  { apply (cm_tok T shelf urls (n + size_of p) (img_kept T p n)); [apply Hn; left; reflexivity|]. apply image_back; [exact Hp|]. intros i h Hi. apply Hm. apply in_or_app. left. exact Hi. }
  assert (comes T shelf urls (breaks br (shown_text (n + size_of p) l)) (shown_body br l)) as R.
  { apply IH; auto; [intros z Hz; apply Hn; right; exact Hz|intros i h Hi; apply Hm; apply in_or_app; right; exact Hi]. }
  rewrite !breaks_app, B. unfold shown_body. cbn [flat_map]. fold (shown_body br l). rewrite <- app_assoc. set (t := pl_text p) in *.
  assert (uid_free T (breaks br t)) as Hu by (destruct Ht as [Ht|Ht]; [eapply (text_free T uid_simple between_code)|eapply (text_free T uid_simple after_code)]; auto).
  destruct l as [|p' l].
  - cbn [shown_text]. change (breaks br []) with (@nil N). change (shown_body br []) with (@nil N). rewrite !app_nil_r. apply (cm_last T uid_simple); auto; destruct (starts_breaks T t Ht) as [->|]; auto.
  - assert (accepts between_code t) as Ht' by (apply Hb; discriminate). apply (cm_hedge T uid_simple); auto; [|apply ends_breaks, ends_between, Ht'].
    destruct (starts_breaks T t Ht) as [->|]; auto. apply ends_between in Ht' as (v & d & F & _). destruct v; discriminate.
Qed.
Lemma images_back_all shelf urls a l n : ishape a l -> incl (shelf_at T n (shown_kept n l)) shelf -> served urls (urls_at n (shown_kept n l)) -> comes T shelf urls (breaks br (a ++ shown_text n l)) (breaks br a ++ shown_body br l).
Proof.
  intros [[-> H]|(Hn & Ha & Hl)] Hs Hu.
  - cbn [shown_text]. rewrite app_nil_r. change (shown_body br []) with (@nil N). rewrite app_nil_r. apply cm_plain. apply uid_breaks; [exact uid_simple|left; apply br_is|]. apply lead_absent; [exact uid_simple|]. eapply never_ok; [exact H|]. vm_compute. reflexivity.
  - rewrite breaks_app. pose proof (images_back shelf urls l n Hl Hs Hu) as R. destruct (ends_before a Ha) as [->|Hc]; [exact R|]. apply (cm_first T uid_simple); [apply ends_breaks; exact Hc|eapply (text_free T uid_simple before_code); auto|exact R].
Qed.
(** ** Line breaks *)
Lemma img_sealed i y q : (forall t, im_alt i = Some t -> ~ In 60 t) -> exists z, img_html T i y ++ q = 60 :: 105 :: 109 :: z ++ q /\ ~ In 60 z.
Proof.
  intros Ha. rewrite img_is, img_parts. assert (exists f, img_front i = 60 :: 105 :: 109 :: f /\ ~ In 60 f) as (f & Ef & Hf).
  { unfold img_front. change (u "<img") with (60 :: 105 :: 109 :: u "g"). eexists. split; [reflexivity|]. intros F. cbn [app] in F.
    assert (forall k x, ~ In 60 k -> ~ In 60 x -> ~ In 60 (attr_text k x)) as G. { intros k x Hk Hx F'. unfold attr_text in F'. rewrite !in_app_iff in F'. destruct F' as [F'|[F'|[F'|[F'|F']]]]; auto; revert F'; vm_compute; intuition discriminate. }
    rewrite !in_app_iff in F. destruct F as [F|[F|[F|[F|F]]]]; [revert F; vm_compute; intuition discriminate| | | |revert F; vm_compute; intuition discriminate].
    - destruct (by_class T); [destruct F|]. destruct (im_side i) as [sd|]; [|destruct F]. cbn [maybe] in F. revert F. apply G; [vm_compute; intuition discriminate|]. destruct sd; vm_compute; intuition discriminate.
    - revert F. apply G; [vm_compute; intuition discriminate|]. destruct (im_alt i) as [t|]; cbn [maybe]; [apply Ha; reflexivity|intros []].
    - destruct (by_class T); [|destruct F]. destruct (im_side i) as [sd|]; [|destruct F]. cbn [maybe] in F. revert F. apply G; [vm_compute; intuition discriminate|]. destruct sd; vm_compute; intuition discriminate. }
  exists (f ++ 34 :: entities true y ++ 34 :: img_rear i). rewrite Ef. cbn [app]. split; [reflexivity|]. intros F. rewrite !in_app_iff in F. cbn [In] in F. rewrite in_app_iff in F. cbn [In] in F.
  destruct F as [F|[F|[F|[F|F]]]]; [auto|discriminate|apply entities_60 in F; exact F|discriminate|]. unfold img_rear in F. rewrite in_app_iff in F. destruct F as [F|F]; [|revert F; vm_compute; intuition discriminate].
  destruct (im_alt i) as [t|] eqn:E; [|destruct F]. cbn [maybe] in F. unfold attr_text in F. rewrite !in_app_iff in F. destruct F as [F|[F|[F|[F|F]]]]; try (revert F; vm_compute; intuition discriminate). apply (Ha t eq_refl F).
Qed.
Lemma placed_60 p : placed_ok W T p -> forall t, im_alt (pl_image p) = Some t -> ~ In 60 t.
Proof. intros ((_ & _ & Ha & _) & _) t E. apply label_60. apply (Ha t E). Qed.
Lemma placed_brs p v w : placed_ok W T p -> brs br fb v w -> exists r r', placed_html T p ++ v = 60 :: r /\ placed_html T p ++ w = 60 :: r' /\ brs br fb (60 :: r) (60 :: r').
Proof.
  intros Hp H. pose proof (placed_60 p Hp) as Ha. unfold placed_html. destruct (im_href (pl_image p)) as [h|].
  - assert (forall q, (u "<a href=""" ++ entities true (pl_href p) ++ u """>" ++ img_html T (pl_image p) (pl_src p) ++ u "</a>") ++ q = 60 :: ([97; 32] ++ u "href=""" ++ entities true (pl_href p) ++ u """>") ++ img_html T (pl_image p) (pl_src p) ++ 60 :: [47; 97; 62] ++ q) as Q.
    { intros q. change (u "<a href=""") with (60 :: [97; 32] ++ u "href="""). change (u "</a>") with (60 :: [47; 97; 62]). repeat (rewrite <- app_assoc || rewrite <- app_comm_cons). reflexivity. }
    rewrite !Q. destruct (img_sealed (pl_image p) (pl_src p) (60 :: [47; 97; 62] ++ v) Ha) as (z & E1 & Hz). destruct (img_sealed (pl_image p) (pl_src p) (60 :: [47; 97; 62] ++ w) Ha) as (z' & E2 & Hz').
    assert (z' = z) as ->. { destruct (img_sealed (pl_image p) (pl_src p) [] Ha) as (z0 & E0 & _). rewrite !app_nil_r in E0. rewrite E0 in E1, E2. cbn [app] in E1, E2. injection E1 as E1. injection E2 as E2. apply app_inv_tail in E1, E2. congruence. }
    rewrite E1, E2. eexists _, _. split; [reflexivity|]. split; [reflexivity|]. apply brs_other; [cbn [app not_br]; intuition discriminate|]. apply brs_app.
    { intros F. rewrite !in_app_iff in F. destruct F as [F|[F|[F|F]]]; [cbn [In] in F; intuition discriminate|revert F; vm_compute; intuition discriminate|apply entities_60 in F; exact F|revert F; vm_compute; intuition discriminate]. }
    apply brs_other; [cbn [not_br]; intuition discriminate|]. change (105 :: 109 :: ?x) with ([105; 109] ++ x). apply brs_app; [cbn [In]; intuition discriminate|]. apply brs_app; [exact Hz|].
    apply brs_other; [cbn [app not_br]; intuition discriminate|]. apply brs_app; [cbn [In]; intuition discriminate|exact H].
  - destruct (img_sealed (pl_image p) (pl_src p) v Ha) as (z & E1 & Hz). destruct (img_sealed (pl_image p) (pl_src p) w Ha) as (z' & E2 & Hz').
    assert (z' = z) as ->. { destruct (img_sealed (pl_image p) (pl_src p) [] Ha) as (z0 & E0 & _). rewrite !app_nil_r in E0. rewrite E0 in E1, E2. cbn [app] in E1, E2. injection E1 as E1. injection E2 as E2. apply app_inv_tail in E1, E2. congruence. }
    rewrite E1, E2. eexists _, _. split; [reflexivity|]. split; [reflexivity|]. apply brs_other; [cbn [not_br]; intuition discriminate|]. change (105 :: 109 :: ?x) with ([105; 109] ++ x). apply brs_app; [cbn [In]; intuition discriminate|]. apply brs_app; [exact Hz|exact H].
Qed.
Lemma images_brs l v w : images_follow W T l -> brs br fb (60 :: v) (60 :: w) -> exists r r', shown_body br l ++ 60 :: v = 60 :: r /\ shown_body fb l ++ 60 :: w = 60 :: r' /\ brs br fb (60 :: r) (60 :: r').
Proof.
  intros Hl H. induction l as [|p l IH]; [exists v, w; auto|]. apply follows_placed in Hl as (Hp & Ht & _ & _ & Hl). destruct (IH Hl) as (r & r' & E1 & E2 & R).
  assert (~ In 60 (pl_text p)) as H60 by (destruct Ht as [Ht|Ht]; [eapply (around_pieces between_code)|eapply (around_pieces after_code)]; eauto).
  pose proof (breaks_brs br fb 60 r r' (pl_text p) H60 ltac:(discriminate) (br_is T) R) as R2.
  unfold shown_body. cbn [flat_map]. fold (shown_body br l) (shown_body fb l). rewrite <- !app_assoc, E1, E2. apply placed_brs; auto.
Qed.
Lemma pictured_brs a l v w : ishape a l -> brs br fb v w -> brs br fb (element (u "p") (breaks br a ++ shown_body br l) ++ v) (element (u "p") (breaks fb a ++ shown_body fb l) ++ w).
Proof.
  intros H Hvw. assert (~ In 60 a /\ images_follow W T l) as [H60 Hl].
  { destruct H as [[-> H]|(_ & H & Hl)]; [split; [|exact I]|split; [eapply (around_pieces before_code); eauto|exact Hl]]. apply no_match_ch. eapply never_ok; [exact H|]. vm_compute. reflexivity. }
  unfold element. rewrite <- !app_assoc.
  change (u "<" ++ u "p" ++ u ">" ++ ?z) with (60 :: [112; 62] ++ z). change (u "</" ++ u "p" ++ u ">" ++ ?z) with (60 :: [47; 112; 62] ++ z).
  assert (brs br fb (60 :: [47; 112; 62] ++ v) (60 :: [47; 112; 62] ++ w)) as R.
  { apply brs_other; [cbn [app not_br]; intuition discriminate|]. apply brs_app; auto. cbn [In]. intuition discriminate. }
  destruct (images_brs l _ _ Hl R) as (q & q' & E1 & E2 & Hq). rewrite E1, E2. apply brs_other; [cbn [app not_br]; intuition discriminate|]. apply brs_app; [cbn [In]; intuition discriminate|].
  apply breaks_brs; auto; [discriminate|]. apply br_is.
Qed.
(** ** Sources *)
Lemma token_uid v : token_free T v -> uid_free T v.
Proof. intros H. unfold uid_free. destruct (contains (t_uid T) v) eqn:E; [|reflexivity]. apply contains_split in E as (a & b & E). exfalso. apply (H a b). exact E. Qed.
Lemma source_free_i l : forall a, uid_free T a -> images_follow W T l -> uid_free T (a ++ seen_text l).
Proof.
  assert (uid_free T []) as N0 by (apply no_colon_free; reflexivity). assert (forall c, In c [33; 60; 61; 62; 59; 40; 41] -> cutter c) as CT.
  { intros c Hc. cbn [In] in Hc. repeat destruct Hc as [<-|Hc]; try (split; reflexivity). destruct Hc. }
  assert (forall c x, In c [33; 60; 61; 62; 59; 40; 41] -> uid_free T x -> uid_free T (c :: x)) as G1 by (intros c x Hc Hx; apply (free_glue T uid_simple c []); auto).
  induction l as [|p l IH]; intros a Ha Hl; [unfold seen_text; cbn [flat_map]; rewrite app_nil_r; exact Ha|]. apply follows_placed in Hl as (Hp & Ht & Hb & _ & Hl).
  pose proof (placed_free p Hp) as Hal. destruct Hp as ((_ & Hsrc & _ & Hh) & _). apply token_uid in Hsrc. destruct p as [i sy hy t]. cbn [pl_image pl_text] in *.
  unfold seen_text. cbn [flat_map]. fold (seen_text l). unfold image_seen, seen. cbn [pl_image pl_text]. rewrite <- !app_assoc. cbn [app]. apply (free_glue T uid_simple); [apply CT; cbn [In]; tauto|exact Ha|]. rewrite <- !app_assoc. cbn [app].
  assert (uid_free T (href_seen (im_href i) ++ t ++ seen_text l)) as R1.
  { destruct (im_href i) as [h|]; cbn [href_seen maybe app]; [|apply IH; auto; apply tail_free; auto]. apply uid_58; auto. destruct (Hh h eq_refl) as [_ Hf]. apply token_uid in Hf.
    destruct (after_free T uid_simple h t (seen_text l) Hf Ht) as [R|E]; [apply IH; auto; apply tail_free; auto|exact R|]. subst t. destruct l as [|q l]; [unfold seen_text; cbn [flat_map app]; rewrite app_nil_r; exact Hf|].
    exfalso. assert (accepts between_code []) as F by (apply Hb; discriminate). apply ends_between in F as (v & d & F & _). destruct v; discriminate. }
  assert (uid_free T (im_src i ++ alt_seen (im_alt i) ++ 33 :: href_seen (im_href i) ++ t ++ seen_text l)) as R2.
  { destruct (im_alt i) as [x|] eqn:E; cbn [alt_seen maybe app]; [|apply (free_glue T uid_simple); auto; apply CT; cbn [In]; tauto]. apply (free_glue T uid_simple); [apply CT; cbn [In]; tauto|exact Hsrc|]. rewrite <- app_assoc. cbn [app].
    apply (free_glue T uid_simple); [apply CT; cbn [In]; tauto|apply Hal; exact E|]. apply G1; [cbn [In]; tauto|exact R1]. }
  destruct (im_side i) as [sd|]; cbn [option_map maybe app]; [|exact R2].
  unfold side_seen. change (u "&lt;") with ([38; 108; 116] ++ [59]). change (u "&gt;") with ([38; 103; 116] ++ [59]). change (u "<") with [60]. change (u "=") with [61]. change (u ">") with [62].
  destruct sd; [destruct (t_restricted T)| |destruct (t_restricted T)]; rewrite <- ?app_assoc; cbn [app]; try (apply G1; [cbn [In]; tauto|exact R2]).
  - apply (free_glue T uid_simple 59 [38; 108; 116]); [apply CT; cbn [In]; tauto|apply no_colon_free; reflexivity|exact R2].
  - apply (free_glue T uid_simple 59 [38; 103; 116]); [apply CT; cbn [In]; tauto|apply no_colon_free; reflexivity|exact R2].
Qed.
Lemma shape_free a l : ishape a l -> uid_free T (a ++ seen_text l).
Proof.
  intros [[-> H]|(_ & H & Hl)]; apply source_free_i; auto; [|exact I|apply (piece_free T uid_simple before_code); auto]. apply lead_absent; [exact uid_simple|]. eapply never_ok; [exact H|]. vm_compute. reflexivity.
Qed.
Definition pictured_stored (a : str) (l : list placed) : stored := mk_stored (a ++ seen_text l) (fun n => a ++ shown_text n l) (fun n => shown_kept n l) (fun x => breaks x a ++ shown_body x l).
Lemma pictured_steady a l : ishape a l -> steady W T shelved_code (pictured_stored a l).
Proof.
  intros H. pose proof (source_accepts_i a l H) as HA.
  assert (forall r, In r early_rx -> no_match (rx_re r) (a ++ seen_text l)) as R by (intros r Hr; eapply never_rx; [exact written_image_rx|exact HA|apply in_or_app; left; exact Hr]).
  assert (forall r, In r image_small -> no_match r (a ++ seen_text l)) as R2 by (intros r Hr; eapply never_in; [exact written_image_small|exact HA|exact Hr]).
  constructor; cbn [pictured_stored d_source d_stage d_kept d_body].
  - apply firm_of; apply R2; cbn [In image_small]; tauto.
  - apply shape_free. exact H.
  - destruct (t_lite T); apply R; cbn [In early_rx]; tauto.
  - apply R. cbn [In early_rx]. tauto.
  - apply R. cbn [In early_rx]. tauto.
  - destruct (a ++ seen_text l) as [|c r] eqn:E.
    { exfalso. inversion HA as [q Hq E1 E2|]; subst. vm_compute in Hq. intuition discriminate. }
    exists c, r. split; [reflexivity|]. pose proof (no_start_cls space_cls c r) as F. rewrite <- F; [|apply R2; cbn [In image_small]; tauto].
    unfold in_cls, space_cls. cbn [c_neg c_items existsb in_item has_prop]. destruct (is_ws c); reflexivity.
  - intros fuel n s Hf Hc Hb. apply graf_images; auto. apply shape_free. exact H.
  - intros n. apply stage_accepts_i; auto.
  - intros shelf urls n Hi Hu. apply images_back_all; auto.
  - intros v w Hvw. apply pictured_brs; auto.
Qed.
End Doc.
