(** What an image becomes. *)
From Verif Require ProofHtml.
From Verif Require Import Str Unicode Regex RegexParse RegexSnips RegexTheory RegexAuto RegexGroups Lib ModelBase ModelHtml ModelUrl
  ModelAttrs ModelInline ModelParser SpecRegex ProofRegex ProofCharref SpecParse ProofParse Logic ProofWalk ProofState SpecState ProofMemory ProofCache SpecLinks ProofLinks ProofDoc
  SpecPlain ProofPlain SpecNewlines ProofNewlines ProofParas ProofWeave ProofListText ProofTags ProofSections ProofBlocks ProofStateEx SpecDoc ProofDocument SpecText ProofText ProofSpan ProofSpanRe ProofSpanText SpecSpans ProofSpanDoc ProofSpanPage
  SpecSigned ProofSigned ProofSignedDoc ProofSignedPage ProofSignedEnd ProofSignedTop ProofPages ProofItems SpecCode ProofCode SpecLinked ProofLinkAuto ProofStock ProofStockDoc ProofCodeDoc ProofCodePage ProofLinked ProofLinkedDoc SpecImages ProofImageAuto ProofImages.
#[local] Arguments u : simpl never.
Section Images.
Variables (W : world) (T : textile).
Hypothesis uid_simple : simple_uid (t_uid T).
Hypothesis no_sizes : t_get_sizes T = false.
Notation tok n := (fragment_token T n).
Definition side_seen (s : side) : str := match s with Left => if t_restricted T then u "&lt;" else u "<" | Center => u "=" | Right => if t_restricted T then u "&gt;" else u ">" end.
Definition image_seen (i : image) : str := seen (option_map side_seen (im_side i)) i.
(** ** The tag *)
Definition img_of (i : image) (v : str) : str :=
  u "<img" ++ (if by_class T then [] else maybe (fun s => attr_text (u "align") (side_name s)) (im_side i))
  ++ attr_text (u "alt") (maybe (fun t => t) (im_alt i))
  ++ (if by_class T then maybe (fun s => attr_text (u "class") (u "align-" ++ side_name s)) (im_side i) else [])
  ++ attr_text (u "src") v ++ maybe (fun t => attr_text (u "title") t) (im_alt i) ++ u " />".
Lemma img_is i x : img_html T i x = img_of i (entities true x). Proof. reflexivity. Qed.
Definition img_attrs (i : image) (v : str) : list (str * str) :=
  (if by_class T then [] else match im_side i with Some s => [(u "align", side_name s)] | None => [] end) ++ [(u "alt", maybe (fun t => t) (im_alt i))]
  ++ (if by_class T then match im_side i with Some s => [(u "class", u "align-" ++ side_name s)] | None => [] end else []) ++ [(u "src", v)] ++ match im_alt i with Some t => [(u "title", t)] | None => [] end.
Lemma attrs_text l : (forall a, In a l -> forallb is_valid_attribute_char (fst a) = true /\ forall c, In c (snd a) -> inert_char c) ->
  flat_map attr_str (filter (fun a => forallb is_valid_attribute_char (fst a)) l) = flat_map (fun a => attr_text (fst a) (snd a)) l.
Proof.
  induction l as [|[k v] l IH]; intros H; [reflexivity|]. cbn [filter]. destruct (H _ (or_introl eq_refl)) as [Hk Hv]. cbn [fst snd] in *. rewrite Hk. cbn [flat_map]. rewrite IH by (intros a Ha; apply H; right; exact Ha). f_equal.
  unfold attr_str, attr_text. cbn [fst snd]. rewrite quote_inert by exact Hv. change (u "=""") with (u "=" ++ u """"). rewrite <- !app_assoc. reflexivity.
Qed.
Lemma gen_img i v : (forall t, im_alt i = Some t -> forall c, In c t -> inert_char c) -> (forall c, In c v -> inert_char c) -> generate_tag (u "img") None (img_attrs i v) = img_of i v.
Proof.
  intros Ha Hv. change (generate_tag (u "img") None (img_attrs i v)) with (((u "<" ++ u "img") ++ flat_map attr_str (filter (fun a => forallb is_valid_attribute_char (fst a)) (img_attrs i v))) ++ u " />").
  rewrite attrs_text.
  - unfold img_of, img_attrs. change (u "<img") with (u "<" ++ u "img"). destruct (by_class T), (im_side i) as [s|], (im_alt i) as [t|]; cbn [maybe flat_map app fst snd]; rewrite <- ?app_assoc; cbn [app]; rewrite ?app_nil_r; reflexivity.
  - assert (forall s c, In c (side_name s) \/ In c (u "align-" ++ side_name s) -> inert_char c) as S1.
    { intros s c [H|H]; (eapply (inert_list _); [|exact H]); destruct s; vm_compute; reflexivity. }
    intros a H. unfold img_attrs in H.
    assert (a = (u "alt", maybe (fun t => t) (im_alt i)) \/ a = (u "src", v) \/ (exists t, im_alt i = Some t /\ a = (u "title", t)) \/ (exists s, a = (u "align", side_name s) \/ a = (u "class", u "align-" ++ side_name s))) as C.
    { rewrite !in_app_iff in H. destruct H as [H|[[H|[]]|[H|[[H|[]]|H]]]]; auto.
      - destruct (by_class T), (im_side i) as [s|]; try contradiction; destruct H as [<-|[]]. eauto 10.
      - destruct (by_class T), (im_side i) as [s|]; try contradiction; destruct H as [<-|[]]. eauto 10.
      - destruct (im_alt i) as [t|]; try contradiction; destruct H as [<-|[]]. right. right. left. exists t. auto. }
    destruct C as [->|[->|[(t & E & ->)|(s & [->| ->])]]]; cbn [fst snd]; (split; [vm_compute; reflexivity|]); auto.
    + destruct (im_alt i) as [t|]; cbn [maybe]; [apply (Ha t eq_refl)|intros c []].
    + exact (Ha t E).
    + intros c Hc. apply (S1 s). auto.
    + intros c Hc. apply (S1 s). auto.
Qed.
Definition a_of (h x : str) : str := u "<a href=""" ++ h ++ u """>" ++ x ++ u "</a>".
Lemma gen_a h x : (forall c, In c h -> inert_char c) -> generate_tag (u "a") (Some x) [(u "href", h)] = a_of h x.
Proof.
  intros H. change (generate_tag (u "a") (Some x) [(u "href", h)]) with (((u "<" ++ u "a") ++ flat_map attr_str (filter (fun a => forallb is_valid_attribute_char (fst a)) [(u "href", h)])) ++ u ">" ++ x ++ u "</" ++ u "a" ++ u ">").
  rewrite attrs_text.
  - unfold a_of. cbn [flat_map fst snd]. unfold attr_text. rewrite app_nil_r. change (u "<a href=""") with ((u "<" ++ u "a") ++ u " " ++ u "href" ++ u "="""). change (u """>") with (u """" ++ u ">"). change (u "</a>") with (u "</" ++ u "a" ++ u ">"). rewrite <- !app_assoc. reflexivity.
  - intros a [<-|[]]. cbn [fst snd]. split; [vm_compute; reflexivity|exact H].
Qed.
(** ** The replacement *)
Definition img_kept (p : placed) (n : N) : str :=
  let x := img_of (pl_image p) (url_token T (n + 1)) in match im_href (pl_image p) with Some _ => a_of (url_token T (n + 2)) x | None => x end.
Definition entries_of (p : placed) (n : N) : list entry :=
  Address (entities true (pl_src p)) :: match im_href (pl_image p) with Some _ => [Address (entities true (pl_href p))] | None => [] end ++ [Kept (img_kept p n)].
Definition size_of (p : placed) : N := match im_href (pl_image p) with Some _ => 3 | None => 2 end.
Lemma printed_ok v y : written_url v -> printed_as W v y -> us_to_html_string W (ModelBase.Raw v) = entities true y.
Proof.
  intros Hv H. unfold us_to_html_string. cbn [us_to_string]. destruct (url_first v Hv) as (c & r & E & _). assert (is_empty v = false) as -> by (rewrite E; reflexivity).
  destruct H as [(sch & Hp & H9 & H10 & H13)|(Hp & Hj & H63 & H35 & ->)].
  - unfold url_parse. rewrite Hp. apply encode_ls; auto.
  - destruct (target_ok W T v v Hv) as (_ & E2 & E3); [right; auto|]. rewrite E2. exact E3.
Qed.
Lemma target_printed v y : written_url v -> target_of W T v y -> is_valid_url W T v = true /\ us_to_html_string W (ModelBase.Raw v) = entities true y.
Proof.
  intros Hv H. destruct (target_ok W T v y Hv H) as (H1 & H2 & H3). split.
  - unfold is_valid_url. destruct (is_empty (url_scheme (url_parse W v))); auto.
  - unfold us_to_html_string. cbn [us_to_string]. destruct (url_first v Hv) as (c & r & E & _). assert (is_empty v = false) as -> by (rewrite E; reflexivity). rewrite H2. exact H3.
Qed.
Definition alt_inert (i : image) : Prop := forall t, im_alt i = Some t -> forall c, In c t -> inert_char c.
Lemma seen_cap3 mark i t : cap_text 3 (seen_caps mark i t) = Some (im_src i).
Proof.
  unfold seen_caps, cap_text. set (R3 := alt_seen _ ++ _). set (R5 := 33 :: _). assert (cap_str (im_src i ++ R3, R3) = im_src i) as E by apply cap_str_app.
  destruct (im_href i), (im_alt i); cbn [href_caps alt_caps find_cap Nat.eqb option_map]; f_equal; exact E.
Qed.
Lemma cap_here x : cap_str (x, x) = [].
Proof. exact (cap_str_app [] x). Qed.
Lemma seen_cap2 mark i t : cap_text 2 (seen_caps mark i t) = Some [].
Proof.
  unfold seen_caps, cap_text. set (R3 := alt_seen _ ++ _). set (R5 := 33 :: _). assert (cap_str (im_src i ++ R3, im_src i ++ R3) = []) as E by apply cap_here.
  destruct (im_href i), (im_alt i); cbn [href_caps alt_caps find_cap Nat.eqb option_map]; f_equal; exact E.
Qed.
Lemma seen_cap1 mark i t : cap_text 1 (seen_caps mark i t) = mark.
Proof.
  unfold seen_caps, cap_text. set (R3 := alt_seen _ ++ _). set (R5 := 33 :: _). set (R2 := im_src i ++ R3).
  destruct mark as [m|]; [assert (cap_str (m ++ R2, R2) = m) as E by apply cap_str_app|]; destruct (im_href i), (im_alt i); cbn [href_caps alt_caps find_cap Nat.eqb option_map]; try reflexivity; f_equal; exact E.
Qed.
Lemma seen_cap4 mark i t : cap_text 4 (seen_caps mark i t) = im_alt i.
Proof.
  unfold seen_caps, cap_text. set (R5 := 33 :: _). set (R3 := alt_seen _ ++ _). set (R2 := im_src i ++ R3).
  destruct (im_href i), (im_alt i) as [x|], mark; cbn [href_caps alt_caps find_cap Nat.eqb option_map]; try reflexivity; f_equal; apply (cap_str_app x (41 :: R5)).
Qed.
Lemma seen_cap5 mark i t : cap_text 5 (seen_caps mark i t) = im_href i.
Proof.
  unfold seen_caps, cap_text. set (R5 := 33 :: _). set (R3 := alt_seen _ ++ _). set (R2 := im_src i ++ R3).
  destruct (im_href i) as [x|], (im_alt i), mark; cbn [href_caps alt_caps find_cap Nat.eqb option_map]; try reflexivity; f_equal; apply (cap_str_app x t).
Qed.
Lemma align_ok sd s : align_name (side_seen sd) s = Ret (side_name sd) s.
Proof. unfold side_seen. destruct sd; [destruct (t_restricted T)| |destruct (t_restricted T)]; reflexivity. Qed.
Lemma class_ok sd l : assoc (u "class") l = None -> insert_css_class (u "align-" ++ side_name sd) l = attr_insert (u "class") (u "align-" ++ side_name sd) l.
Proof. intros H. unfold insert_css_class. assert (css_class_ok (u "align-" ++ side_name sd) = true) as -> by (destruct sd; vm_compute; reflexivity). rewrite H. destruct sd; reflexivity. Qed.
Lemma f_image_ok p text rest s :
  placed_ok W T p -> alt_inert (pl_image p) ->
  f_image W T (mk_hit text (seen_caps (option_map side_seen (im_side (pl_image p))) (pl_image p) rest)) s =
  Ret (tok (ps_ref_index s + size_of p)) (stocks T (entries_of p (ps_ref_index s)) s).
Proof.
  intros (((Hu & _ & _) & _ & _ & Hh) & Hs & Hp & _) Hi. destruct p as [i sy hy t]. cbn [pl_image pl_src pl_href pl_text] in *.
  unfold f_image, cap_opt, capx. cbn [h_caps]. rewrite seen_cap1, seen_cap2, seen_cap3, seen_cap4, seen_cap5. cbn [of_opt]. rewrite bind_ret.
  destruct (target_printed _ _ Hu Hs) as [E1 E2]. rewrite E1. cbn [negb]. 
  assert (forall g : html_attrs -> M str, bind (bind (block_attributes_parse [] ElNone true (t_restricted T)) (fun x => ret (ba_html_attrs x))) g s = g [] s) as -> by reflexivity.
  set (a1 := match im_side i with Some sd => if by_class T then [(u "class", u "align-" ++ side_name sd)] else [(u "align", side_name sd)] | None => [] end).
  assert (forall (g : html_attrs -> M str), bind (match option_map side_seen (im_side i) with Some align => bind (align_name align) (fun a => ret (if use_align_class T then insert_css_class (u "align-" ++ a) [] else attr_insert (u "align") a [])) | None => ret [] end) g s = g a1 s) as ->.
  { intros g. unfold a1. change (use_align_class T) with (by_class T). destruct (im_side i) as [sd|]; cbn [option_map]; [|reflexivity]. unfold bind. rewrite align_ok. unfold ret. destruct (by_class T); [|reflexivity]. rewrite class_ok by reflexivity. reflexivity. }
  rewrite no_sizes, andb_false_r, bind_ret. unfold bind at 1. rewrite unrestrict by exact Hu. unfold bind at 1. rewrite shelve_url_eq. rewrite E2.
  set (s1 := set_ref_cache _ _). change (t_uid T ++ dec (ps_ref_index s + 1) ++ u ":url") with (url_token T (ps_ref_index s + 1)). set (v := url_token T (ps_ref_index s + 1)).
  match goal with |- context [generate_tag (u "img") None ?x] => assert (x = img_attrs i v) as -> end.
  { unfold a1, img_attrs. destruct (im_side i) as [sd|], (by_class T), (im_alt i) as [x|]; reflexivity. }
  rewrite gen_img; [|exact Hi|intros c; apply (inert_token T uid_simple)].
  unfold entries_of, size_of, img_kept, stocks. cbn [pl_image pl_src pl_href]. destruct (im_href i) as [h|]; cbn [app fold_left].
  - unfold bind at 1. unfold bind at 1. rewrite unrestrict by (apply Hh; reflexivity). unfold bind at 1. rewrite shelve_url_eq. rewrite (printed_ok h hy) by (try apply Hh; try apply Hp; reflexivity).
    change (t_uid T ++ dec (ps_ref_index s1 + 1) ++ u ":url") with (url_token T (ps_ref_index s1 + 1)). assert (is_empty (url_token T (ps_ref_index s1 + 1)) = false) as ->.
    { unfold url_token. destruct uid_simple as (id & -> & _). reflexivity. }
    rewrite gen_a by (intros c; apply (inert_token T uid_simple)). unfold ret. rewrite shelve_eq. unfold stock at 1 2 3. cbn [set_shelf set_ref_index set_ref_cache ps_ref_index ps_shelf ps_ref_cache]. unfold s1. cbn [set_shelf set_ref_index set_ref_cache ps_ref_index ps_shelf ps_ref_cache].
    replace (ps_ref_index s + 3) with (ps_ref_index s + 1 + 1 + 1) by lia. replace (ps_ref_index s + 2) with (ps_ref_index s + 1 + 1) by lia. reflexivity.
  - rewrite bind_ret, shelve_eq. unfold stock at 1 2. cbn [set_shelf set_ref_index set_ref_cache ps_ref_index ps_shelf ps_ref_cache]. unfold s1. cbn [set_shelf set_ref_index set_ref_cache ps_ref_index ps_shelf ps_ref_cache].
    replace (ps_ref_index s + 2) with (ps_ref_index s + 1 + 1) by lia. reflexivity.
Qed.
End Images.
