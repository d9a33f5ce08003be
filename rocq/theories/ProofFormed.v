(** Documents of blocks of all kinds become well-formed HTML. *)
From Coq Require Import ZArith.
From Verif Require Import Str Unicode Regex RegexParse RegexSnips RegexTheory RegexAuto RegexGroups Lib ModelBase ModelHtml ModelUrl
  ModelAttrs ModelInline ModelParser SpecRegex ProofRegex SpecHtml ProofHtml ProofCharref SpecParse ProofParse Logic ProofWalk ProofState SpecState ProofMemory ProofCache ProofLinks ProofSpan ProofDoc
  SpecPlain ProofPlain SpecNewlines ProofNewlines ProofParas ProofTags ProofSections ProofBlocks ProofStateEx SpecDoc ProofDocument SpecText ProofText ProofPieces ProofWeave SpecLists ProofLists ProofListText ProofListDoc
  ProofListNested SpecAtts ProofSafe SpecTables SpecDefs SpecSigned ProofSigAtts ProofSigSheet ProofSignedDoc ProofSignedEnd ProofSignedTop SpecMixed ProofMixed SpecFormed SpecLists.
#[local] Arguments u : simpl never.

Lemma formed_nil : formed [].
Proof. apply FormedText; intros []. Qed.
Lemma formed_plain t : existsb (fun c => (c =? 60) || (c =? 62)) t = false -> formed t.
Proof.
  intros H. assert (Q : forall c, In c t -> (c =? 60) || (c =? 62) = false).
  { intros c Hc. destruct ((c =? 60) || (c =? 62)) eqn:E; [|reflexivity]. assert (existsb (fun c => (c =? 60) || (c =? 62)) t = true) by (apply existsb_exists; eauto). congruence. }
  apply FormedText; intros F; apply Q in F; discriminate.
Qed.
Lemma formed_join s l : formed s -> Forall formed l -> formed (join s l).
Proof.
  intros N. induction 1 as [|x l Hx Hl IH]; [apply formed_nil|]. destruct l as [|y l]; [exact Hx|]. change (join s (x :: y :: l)) with (x ++ s ++ join s (y :: l)). repeat apply FormedApp; auto.
Qed.
Lemma formed_flat {A} (f : A -> str) l : (forall x, In x l -> formed (f x)) -> formed (flat_map f l).
Proof. induction l as [|x l IH]; intros H; [apply formed_nil|]. cbn [flat_map]. apply FormedApp; [apply H; left; reflexivity|apply IH; intros y Hy; apply H; right; exact Hy]. Qed.
Lemma formed_sections l : Forall formed l -> formed (sections l).
Proof.
  induction 1 as [|x l Hx Hl IH]; [apply formed_nil|]. destruct l as [|y l]; [exact Hx|]. rewrite sections_cons by discriminate. apply FormedApp; [exact Hx|].
  apply (FormedApp [10]); [apply formed_plain; reflexivity|]. apply (FormedApp [10]); [apply formed_plain; reflexivity|]. exact IH.
Qed.
Lemma formed_element name w : In name element_names -> formed w -> formed (u "<" ++ name ++ u ">" ++ w ++ u "</" ++ name ++ u ">").
Proof. intros H1 H2. exact (FormedElement name [] w H1 (Forall_nil _) H2). Qed.
Lemma name_in n l : existsb (seqb n) l = true -> In n l.
Proof. intros H. apply existsb_exists in H as (x & Hx & E). apply seqb_eq in E. subst. exact Hx. Qed.
Lemma text_formed A t : forallb (never A) [RCls (ch 60); RCls (ch 62)] = true -> accepts A t -> formed t.
Proof. intros K H. apply FormedText; apply no_match_ch; (eapply never_in; [exact K|exact H|cbn [In]; tauto]). Qed.
Lemma item_text_formed t : accepts item_text t -> formed t.
Proof. apply text_formed. vm_compute. reflexivity. Qed.
Lemma cell_text_formed t : accepts cell_text t -> formed t.
Proof. apply text_formed. vm_compute. reflexivity. Qed.
Lemma dec_without n x : ~ (48 <= x <= 57) -> ~ In x (dec n).
Proof. intros Hx F. pose proof (dec_digits n) as E. rewrite Forall_forall in E. apply E in F. contradiction. Qed.
Lemma number_ok name n : In name attribute_names -> attribute_ok (name, dec n).
Proof. intros H. split; [exact H|]. cbn [snd]. split; [|split]; apply dec_without; lia. Qed.

(** ** Lists *)
Lemma formed_tabs n : formed (tabs n).
Proof. apply FormedText; apply tabs_60; discriminate. Qed.
Lemma formed_nl : formed [10].
Proof. apply formed_plain. reflexivity. Qed.
Lemma formed_li w : formed w -> formed (u "<li>" ++ w ++ u "</li>").
Proof. intros H. apply (formed_element (u "li") w); [apply name_in; vm_compute; reflexivity|exact H]. Qed.
Lemma formed_list k p c w : formed w -> formed (fst (opening k p c) ++ w ++ closing k).
Proof.
  intros H.
  assert (Q : forall n, formed ((u "<ol start=""" ++ dec n ++ u """>") ++ w ++ u "</ol>")).
  { intros n. pose proof (FormedElement (u "ol") [(u "start", dec n)] w) as E. cbn [flat_map app] in E. unfold attribute_text in E. cbn [fst snd] in E. rewrite app_nil_r in E. rewrite <- !app_assoc in *.
    assert (u "<ol start=""" = u "<" ++ u "ol" ++ u " " ++ u "start" ++ u "=""") as -> by (vm_compute; reflexivity).
    assert (u "</ol>" = u "</" ++ u "ol" ++ u ">") as -> by (vm_compute; reflexivity). assert (u """>" = u """" ++ u ">") as -> by (vm_compute; reflexivity).
    rewrite <- !app_assoc. apply E; [apply name_in; vm_compute; reflexivity| |exact H]. constructor; [|constructor]. apply number_ok. apply name_in. vm_compute. reflexivity. }
  destruct k as [|[| |]]; cbn [opening fst closing]; [| |apply Q|apply Q]; [apply (formed_element (u "ul") w)|apply (formed_element (u "ol") w)]; (exact H || (apply name_in; vm_compute; reflexivity)).
Qed.
Lemma formed_item i : (forall t, In t (texts i) -> accepts item_text t) -> forall d k p c x c', item_html d k p i c = Some (x, c') -> formed x.
Proof.
  induction i as [t k' sub IH] using item_induction. intros Ht d k p c x c' E. cbn [item_html] in E. destruct (take_number k p c) as [c1|]; [|discriminate].
  assert (At : formed t) by (apply item_text_formed, Ht; left; reflexivity). assert (T1 : formed [9]) by (apply (formed_tabs 1)). destruct sub as [|i l].
  - inversion E; subst. apply FormedApp; [apply formed_tabs|]. apply (FormedApp [9] (u "<li>" ++ t ++ u "</li>")); [exact T1|apply formed_li; exact At].
  - set (sub := i :: l) in *. set (p' := p ++ [mark_of k']) in *. pose proof (formed_list k' p' c1) as Ho. destruct (opening k' p' c1) as [tag c2] eqn:Eo. cbn [fst] in Ho.
    destruct (run_items (item_html (S d) k' p') sub c2) as [[lines c3]|] eqn:Er; [|discriminate]. inversion E; subst x c'. clear E.
    assert (G : Forall formed lines /\ List.length lines = List.length sub).
    { eapply run_items_all; [|exact Er]. intros i0 c0 x0 c0' Hi E0. rewrite Forall_forall in IH. eapply (IH i0 Hi); [|exact E0]. intros t0 H0. apply Ht. cbn [texts]. right. apply in_flat_map. eauto. }
    destruct G as [G _]. apply (formed_join [10]) in G; [|apply formed_nl]. unfold str in *. set (n := of_last (last_indent (S d)) (last_indent (S d) i) l) in *.
    apply FormedApp; [apply formed_tabs|]. pose proof (FormedApp [9] _ T1 (formed_li (t ++ [10] ++ tabs (S d) ++ (tag ++ ([10] ++ join [10] lines ++ [10] ++ tabs n) ++ closing k'))
      (FormedApp _ _ At (FormedApp _ _ formed_nl (FormedApp _ _ (formed_tabs (S d)) (Ho _ (FormedApp _ _ formed_nl (FormedApp _ _ G (FormedApp _ _ formed_nl (formed_tabs n)))))))))) as R.
    rewrite <- !app_assoc in R. exact R.
Qed.
Lemma formed_html k items c x c' : (forall t, In t (flat_map texts items) -> accepts item_text t) -> list_html k items c = Some (x, c') -> formed x.
Proof.
  intros Ht E. unfold list_html in E. pose proof (formed_list k [mark_of k] c) as Ho. destruct (opening k [mark_of k] c) as [tag c2] eqn:Eo. cbn [fst] in Ho. destruct (run_items _ items c2) as [[lines c3]|] eqn:Er; [|discriminate]. inversion E; subst x c'. clear E.
  assert (G : Forall formed lines /\ List.length lines = List.length items).
  { eapply run_items_all; [|exact Er]. intros i0 c0 x0 c0' Hi E0. eapply formed_item; [|exact E0]. intros t0 H0. apply Ht. apply in_flat_map. eauto. }
  destruct G as [G _]. apply (formed_join [10]) in G; [|apply formed_nl]. unfold str in *. set (n := of_last (last_indent 0) 0 items) in *.
  pose proof (Ho _ (FormedApp _ _ formed_nl (FormedApp _ _ G (FormedApp _ _ formed_nl (formed_tabs n))))) as R. rewrite <- !app_assoc in R. exact R.
Qed.

(** ** Tables *)
Lemma style_ok c : cell_style c <> [] -> attribute_ok (u "style", join (u "; ") (cell_style c) ++ u ";").
Proof.
  intros _. split; [apply name_in; vm_compute; reflexivity|]. cbn [snd].
  assert (K : forallb (fun x => negb ((x =? 34) || (x =? 60) || (x =? 62))) (join (u "; ") (cell_style c) ++ u ";") = true).
  { unfold cell_style. destruct (c_head c), (c_col c), (c_row c), (c_valign c) as [[]|], (c_halign c) as [[]|]; vm_compute; reflexivity. }
  rewrite forallb_forall in K. split; [|split]; intros F; apply K in F; discriminate.
Qed.
Definition cell_list (c : cell) : list (str * str) :=
  match c_col c with Some n => [(u "colspan", dec n)] | None => [] end ++ match c_row c with Some n => [(u "rowspan", dec n)] | None => [] end ++
  match cell_style c with [] => [] | l => [(u "style", join (u "; ") l ++ u ";")] end.
Lemma cell_list_text c : flat_map attribute_text (cell_list c) = cell_atts c.
Proof.
  unfold cell_list, cell_atts. rewrite !flat_map_app. f_equal; [|f_equal].
  - destruct (c_col c) as [n|]; [|reflexivity]. cbn [flat_map]. rewrite app_nil_r. unfold attribute_text. cbn [fst snd]. assert (u " colspan=""" = u " " ++ u "colspan" ++ u "=""") as -> by (vm_compute; reflexivity). rewrite <- !app_assoc. reflexivity.
  - destruct (c_row c) as [n|]; [|reflexivity]. cbn [flat_map]. rewrite app_nil_r. unfold attribute_text. cbn [fst snd]. assert (u " rowspan=""" = u " " ++ u "rowspan" ++ u "=""") as -> by (vm_compute; reflexivity). rewrite <- !app_assoc. reflexivity.
  - destruct (cell_style c) as [|x l]; [reflexivity|]. cbn [flat_map]. rewrite app_nil_r. unfold attribute_text. cbn [fst snd]. assert (u " style=""" = u " " ++ u "style" ++ u "=""") as -> by (vm_compute; reflexivity).
    assert (u ";""" = u ";" ++ u """") as -> by (vm_compute; reflexivity). rewrite <- !app_assoc. reflexivity.
Qed.
Lemma cell_list_ok c : Forall attribute_ok (cell_list c).
Proof.
  unfold cell_list. apply Forall_app. split; [|apply Forall_app; split].
  - destruct (c_col c); [constructor; [apply number_ok; apply name_in; vm_compute; reflexivity|constructor]|constructor].
  - destruct (c_row c); [constructor; [apply number_ok; apply name_in; vm_compute; reflexivity|constructor]|constructor].
  - pose proof (style_ok c) as S. destruct (cell_style c); [constructor|]. constructor; [apply S; discriminate|constructor].
Qed.
Lemma formed_cell c : c_text c = [] \/ accepts cell_text (c_text c) -> formed (cell_html c).
Proof.
  intros H. unfold cell_html. apply FormedApp; [apply formed_plain; vm_compute; reflexivity|].
  assert (Ht : formed (c_text c)) by (destruct H as [->|H]; [apply formed_nil|apply cell_text_formed; exact H]). rewrite <- cell_list_text. destruct (c_head c).
  - assert (u "<th" = u "<" ++ u "th") as -> by (vm_compute; reflexivity). assert (u "</th>" = u "</" ++ u "th" ++ u ">") as -> by (vm_compute; reflexivity). rewrite <- !app_assoc.
    apply FormedElement; [apply name_in; vm_compute; reflexivity|apply cell_list_ok|exact Ht].
  - assert (u "<td" = u "<" ++ u "td") as -> by (vm_compute; reflexivity). assert (u "</td>" = u "</" ++ u "td" ++ u ">") as -> by (vm_compute; reflexivity). rewrite <- !app_assoc.
    apply FormedElement; [apply name_in; vm_compute; reflexivity|apply cell_list_ok|exact Ht].
Qed.
Lemma formed_row r q : proper_row r q -> formed (row_html q).
Proof.
  intros (_ & H). unfold row_html.
  assert (u "
		<tr>" = u "
		" ++ u "<" ++ u "tr" ++ u ">") as -> by (vm_compute; reflexivity).
  assert (u "
		</tr>" = u "
		" ++ u "</" ++ u "tr" ++ u ">") as -> by (vm_compute; reflexivity).
  rewrite <- !app_assoc. apply FormedApp; [apply formed_plain; vm_compute; reflexivity|].
  pose proof (formed_element (u "tr") (flat_map cell_html q ++ u "
		")) as E. rewrite <- !app_assoc in E. apply E; [apply name_in; vm_compute; reflexivity|]. apply FormedApp; [|apply formed_plain; vm_compute; reflexivity].
  apply formed_flat. intros c Hc. apply formed_cell. exact (proj1 (H c Hc)).
Qed.
Lemma formed_group r g : (forall q, In q (snd g) -> proper_row r q) -> formed (group_html g).
Proof.
  intros H. unfold group_html.
  assert (u "
	<" = u "
	" ++ u "<") as -> by (vm_compute; reflexivity).
  assert (u "
	</" = u "
	" ++ u "</") as -> by (vm_compute; reflexivity).
  rewrite <- !app_assoc. apply FormedApp; [apply formed_plain; vm_compute; reflexivity|].
  pose proof (formed_element (group_name (fst g)) (flat_map row_html (snd g) ++ u "
	")) as E. rewrite <- !app_assoc in E. apply E; [apply name_in; destruct (fst g); vm_compute; reflexivity|]. apply FormedApp; [|apply formed_plain; vm_compute; reflexivity].
  apply formed_flat. intros q Hq. eapply formed_row. apply H. exact Hq.
Qed.
Lemma formed_table r t : proper_table r t -> formed (table_html t).
Proof.
  intros (_ & Hr & _ & Hc). unfold table_html.
  assert (u "	<table>" = u "	" ++ u "<" ++ u "table" ++ u ">") as -> by (vm_compute; reflexivity).
  assert (u "
	</table>" = u "
	" ++ u "</" ++ u "table" ++ u ">") as -> by (vm_compute; reflexivity).
  rewrite <- !app_assoc. apply FormedApp; [apply formed_plain; vm_compute; reflexivity|].
  pose proof (formed_element (u "table") (caption_html t ++ flat_map group_html (t_groups t) ++ flat_map row_html (t_loose t) ++ u "
	")) as E. rewrite <- !app_assoc in E. apply E; [apply name_in; vm_compute; reflexivity|]. apply FormedApp; [|apply FormedApp; [|apply FormedApp; [|apply formed_plain; vm_compute; reflexivity]]].
  - unfold caption_html. destruct (t_caption t) as [c|]; [|apply formed_nil].
    assert (u "
	<caption>" = u "
	" ++ u "<" ++ u "caption" ++ u ">") as -> by (vm_compute; reflexivity).
    assert (u "</caption>
" = u "</" ++ u "caption" ++ u ">" ++ u "
") as -> by (vm_compute; reflexivity).
    rewrite <- !app_assoc. apply FormedApp; [apply formed_plain; vm_compute; reflexivity|].
    pose proof (FormedApp _ (u "
") (formed_element (u "caption") c ltac:(apply name_in; vm_compute; reflexivity) (cell_text_formed c Hc)) ltac:(apply formed_plain; vm_compute; reflexivity)) as R. rewrite <- !app_assoc in R. exact R.
  - apply formed_flat. intros g Hg. apply (formed_group r). intros q Hq. apply Hr. unfold all_rows. apply in_or_app. right. apply in_flat_map. eauto.
  - apply formed_flat. intros q Hq. eapply formed_row. apply Hr. unfold all_rows. apply in_or_app. left. exact Hq.
Qed.
(** ** Definition lists *)
Lemma formed_defs l : proper_defs l -> formed (defs_html l).
Proof.
  intros (H & t & d & Hi). unfold defs_html. set (es := flat_map entry_html l).
  assert (He : Forall formed es).
  { apply Forall_forall. intros x Hx. apply in_flat_map in Hx as (e & Hx & Hy). rewrite Forall_forall in H. specialize (H e Hx) as (H1 & H2). destruct Hy as [<-|Hy].
    - assert (u "	<dt>" = u "	" ++ u "<" ++ u "dt" ++ u ">") as -> by (vm_compute; reflexivity). assert (u "</dt>" = u "</" ++ u "dt" ++ u ">") as -> by (vm_compute; reflexivity). rewrite <- !app_assoc.
      apply FormedApp; [apply formed_plain; vm_compute; reflexivity|]. apply formed_element; [apply name_in; vm_compute; reflexivity|apply item_text_formed; exact H1].
    - destruct (snd e) as [x'|]; [|destruct Hy]. destruct Hy as [<-|[]].
      assert (u "	<dd>" = u "	" ++ u "<" ++ u "dd" ++ u ">") as -> by (vm_compute; reflexivity). assert (u "</dd>" = u "</" ++ u "dd" ++ u ">") as -> by (vm_compute; reflexivity). rewrite <- !app_assoc.
      apply FormedApp; [apply formed_plain; vm_compute; reflexivity|]. apply formed_element; [apply name_in; vm_compute; reflexivity|apply item_text_formed; exact H2]. }
  assert (N : es <> []) by (unfold es; intros F; destruct l as [|e l]; [destruct Hi|discriminate]).
  assert (J : forall (a b : str) (x : list str), x <> [] -> join [10] (a :: x ++ [b]) = a ++ ([10] ++ join [10] x ++ [10]) ++ b).
  { assert (J0 : forall (b y : str) (x : list str), join [10] ((y :: x) ++ [b]) = join [10] (y :: x) ++ [10] ++ b).
    { intros b y x. revert y. induction x as [|z x IH]; intros y; [reflexivity|]. change (join [10] ((y :: z :: x) ++ [b])) with (y ++ [10] ++ join [10] ((z :: x) ++ [b])). rewrite IH.
      change (join [10] (y :: z :: x)) with (y ++ [10] ++ join [10] (z :: x)). rewrite <- !app_assoc. reflexivity. }
    intros a b x Hx. destruct x as [|y x]; [congruence|]. change (join [10] (a :: (y :: x) ++ [b])) with (a ++ [10] ++ join [10] ((y :: x) ++ [b])). rewrite J0. rewrite <- !app_assoc. reflexivity. }
  rewrite J by exact N. assert (u "<dl>" = u "<" ++ u "dl" ++ u ">") as -> by (vm_compute; reflexivity). assert (u "</dl>" = u "</" ++ u "dl" ++ u ">") as -> by (vm_compute; reflexivity).
  pose proof (formed_element (u "dl") ([10] ++ join [10] es ++ [10])) as E. rewrite <- !app_assoc in *. apply E; [apply name_in; vm_compute; reflexivity|].
  apply FormedApp; [apply formed_nl|]. apply FormedApp; [apply formed_join; [apply formed_nl|exact He]|apply formed_nl].
Qed.
(** ** Blocks with a signature *)
Lemma attributes_list r l : (forall x, In x l -> spec r x) -> attributes r l = flat_map attribute_text (meant ElNone true r l) /\ Forall attribute_ok (meant ElNone true r l).
Proof.
  intros H. split; [reflexivity|]. apply Forall_forall. intros (n & v) Hv. destruct (meant_is r l n v H Hv) as (Hn & _). pose proof (meant_chars r l n v H Hv) as Hc.
  split; [cbn [fst]; assert (K : forallb (fun n => existsb (seqb n) attribute_names) attr_names = true) by (vm_compute; reflexivity); rewrite forallb_forall in K; apply name_in, K, Hn|].
  cbn [snd]. assert (Q : forall c, forallb (fun x => negb (x =? c)) body_chars = true -> ~ In c v).
  { intros c K F. unfold in_chars in Hc. rewrite forallb_forall in Hc, K. apply Hc in F. apply existsb_exists in F as (x & Hx & E). apply N.eqb_eq in E. subst x. apply K in Hx. rewrite N.eqb_refl in Hx. discriminate. }
  split; [|split]; apply Q; vm_compute; reflexivity.
Qed.
Lemma tagged_formed name r l w : In name element_names -> (forall x, In x l -> spec r x) -> formed w -> formed (u "<" ++ name ++ attributes r l ++ u ">" ++ w ++ u "</" ++ name ++ u ">").
Proof. intros Hn Hl Hw. destruct (attributes_list r l Hl) as [-> Ha]. apply FormedElement; auto. Qed.
Lemma breaks_formed T t : accepts paragraph t -> formed (breaks (line_break T) t).
Proof.
  intros H. assert (K : forallb (never paragraph) [RCls (ch 60); RCls (ch 62)] = true) by (vm_compute; reflexivity).
  assert (Q1 : ~ In 60 t) by (apply no_match_ch; eapply never_in; [exact K|exact H|cbn [In]; tauto]). assert (Q2 : ~ In 62 t) by (apply no_match_ch; eapply never_in; [exact K|exact H|cbn [In]; tauto]).
  unfold breaks. apply formed_flat. intros c Hc. destruct (c =? 10).
  - unfold line_break. apply FormedApp; [|apply formed_nl]. apply FormedBreak. destruct (t_html T); [right|left]; reflexivity.
  - apply FormedText; intros [->|[]]; contradiction.
Qed.

Lemma text_inside T g l t : is_text g = true -> sig_ok T g l -> accepts paragraph t -> formed (inner (t_restricted T) (line_break T) g l t).
Proof.
  intros Hg Hs Ht. pose proof (sig_spec T g l Hs) as Hl. pose proof (breaks_formed T t Ht) as Hb. unfold inner. destruct g; try discriminate; cbn [inner_open inner_close inside].
  - assert (u "<p" = u "<" ++ u "p") as -> by (vm_compute; reflexivity). assert (u "</p>" = u "</" ++ u "p" ++ u ">") as -> by (vm_compute; reflexivity). rewrite <- !app_assoc.
    apply tagged_formed; [apply name_in; vm_compute; reflexivity|exact Hl|exact Hb].
  - rewrite <- !app_assoc. apply tagged_formed; [|exact Hl|exact Hb]. destruct Hs as (Hn & _). cbn [is_text] in Hn.
    assert (n = 1 \/ n = 2 \/ n = 3 \/ n = 4 \/ n = 5 \/ n = 6) as E by lia. apply name_in. destruct E as [->|[->|[->|[->|[->| ->]]]]]; vm_compute; reflexivity.
  - rewrite <- !app_assoc. apply (FormedApp [9]); [apply formed_plain; reflexivity|].
    assert (u "<p" = u "<" ++ u "p") as -> by (vm_compute; reflexivity). assert (u "</p>" = u "</" ++ u "p" ++ u ">") as -> by (vm_compute; reflexivity). rewrite <- !app_assoc.
    apply tagged_formed; [apply name_in; vm_compute; reflexivity|exact Hl|exact Hb].
Qed.
Lemma entities_formed q t : formed (entities q t).
Proof. apply FormedText; [apply entities_60|apply entities_62]. Qed.
Lemma class_list r l : (forall x, In x l -> spec r x) -> exists atts, code_class l = flat_map attribute_text atts /\ Forall attribute_ok atts.
Proof.
  intros H. unfold code_class. destruct (language l) as [w|] eqn:E; [|exists []; split; [reflexivity|constructor]]. destruct (in_chars name_chars w) eqn:Ew; [|exists []; split; [reflexivity|constructor]].
  exists [(u "class", w)]. split.
  - cbn [flat_map]. rewrite app_nil_r. unfold attribute_text. cbn [fst snd]. assert (u " class=""" = u " " ++ u "class" ++ u "=""") as -> by (vm_compute; reflexivity). rewrite <- !app_assoc. reflexivity.
  - constructor; [|constructor]. split; [apply name_in; vm_compute; reflexivity|]. cbn [snd].
    assert (Q : forall c, forallb (fun x => negb (x =? c)) name_chars = true -> ~ In c w).
    { intros c K F. unfold in_chars in Ew. rewrite forallb_forall in Ew, K. apply Ew in F. apply existsb_exists in F as (x & Hx & Ex). apply N.eqb_eq in Ex. subst x. apply K in Hx. rewrite N.eqb_refl in Hx. discriminate. }
    split; [|split]; apply Q; vm_compute; reflexivity.
Qed.
Lemma group_formed T g l ts : sig_ok T g l -> (forall t, In t ts -> sig_text g t \/ is_text g = false) -> (g = SigRaw -> forall t, In t ts -> formed t) ->
  formed (group (t_restricted T) (line_break T) g l ts).
Proof.
  intros Hs Ht Hr. pose proof (sig_spec T g l Hs) as Hl. unfold group.
  assert (Hi : formed (sections (map (inner (t_restricted T) (line_break T) g l) ts))).
  { apply formed_sections. apply Forall_forall. intros x Hx. apply in_map_iff in Hx as (t & <- & Hi). destruct (is_text g) eqn:Eg.
    - apply text_inside; auto. destruct (Ht t Hi) as [H|H]; [|discriminate]. destruct g; try discriminate; exact H.
    - destruct g; try discriminate; unfold inner; cbn [inner_open inner_close inside app]; rewrite app_nil_r; [apply entities_formed|apply entities_formed|apply Hr; [reflexivity|exact Hi]]. }
  destruct g; cbn [outer_open outer_close app]; rewrite ?app_nil_r; try exact Hi.
  - assert (u "<blockquote" = u "<" ++ u "blockquote") as -> by (vm_compute; reflexivity). assert (u "</blockquote>" = u "</" ++ u "blockquote" ++ u ">") as -> by (vm_compute; reflexivity).
    pose proof (tagged_formed (u "blockquote") (t_restricted T) l ([10] ++ sections (map (inner (t_restricted T) (line_break T) SigBq l) ts) ++ [10])) as E. rewrite <- !app_assoc in *.
    apply E; [apply name_in; vm_compute; reflexivity|exact Hl|]. apply FormedApp; [apply formed_nl|]. apply FormedApp; [exact Hi|apply formed_nl].
  - destruct (class_list _ l Hl) as (atts & -> & Ha).
    assert (u "<pre" = u "<" ++ u "pre") as -> by (vm_compute; reflexivity). assert (u "><code" = u ">" ++ u "<" ++ u "code") as -> by (vm_compute; reflexivity).
    assert (u "</code></pre>" = u "</" ++ u "code" ++ u ">" ++ u "</" ++ u "pre" ++ u ">") as -> by (vm_compute; reflexivity).
    pose proof (tagged_formed (u "pre") (t_restricted T) (filter not_lang l) (u "<" ++ u "code" ++ flat_map attribute_text atts ++ u ">" ++ sections (map (inner (t_restricted T) (line_break T) SigBc l) ts) ++ u "</" ++ u "code" ++ u ">")) as E.
    rewrite <- !app_assoc in *. apply E; [apply name_in; vm_compute; reflexivity|apply filter_spec; exact Hl|]. apply FormedElement; [apply name_in; vm_compute; reflexivity|exact Ha|exact Hi].
  - assert (u "<pre" = u "<" ++ u "pre") as -> by (vm_compute; reflexivity). assert (u "</pre>" = u "</" ++ u "pre" ++ u ">") as -> by (vm_compute; reflexivity). rewrite <- !app_assoc.
    apply tagged_formed; [apply name_in; vm_compute; reflexivity|exact Hl|exact Hi].
Qed.

Lemma word_formed T p h : simple_uid (t_uid T) -> part_ok T p -> no_raw (t_restricted T) (Worded p) -> In h (SpecSigned.part_html (t_restricted T) (line_break T) (seen_part T p)) -> formed h.
Proof.
  intros Hu Hp Hr Hh.
  assert (R : forall g t, sig_text g t -> (is_text g = true -> seen_in T g t = t) /\ (g = SigRaw -> t_restricted T = true -> formed (seen_in T g t))).
  { intros g t _. split; [intros E; unfold seen_in; rewrite E; reflexivity|]. intros -> E. unfold seen_in, seen_text. cbn [is_text]. rewrite E. apply entities_formed. }
  destruct p as [t|g l t|g l t more|t]; cbn [seen_part SpecSigned.part_html] in Hh.
  - destruct Hh as [<-|[]]. apply (group_formed T SigP [] [t]); [|intros x [<-|[]]; left; exact Hp|discriminate].
    apply bare_ok. exact Hu.
  - destruct Hp as (Hs & _ & Ht & _). destruct Hh as [<-|[]]. apply group_formed; [exact Hs| |].
    + intros x [<-|[]]. destruct (is_text g) eqn:Eg; [left|right; reflexivity]. rewrite (proj1 (R g t Ht) Eg). exact Ht.
    + intros -> x [<-|[]]. apply (proj2 (R SigRaw t Ht) eq_refl). exact Hr.
  - destruct Hp as (Hs & _ & Ht & _). destruct Hh as [<-|[]].
    assert (Q : forall x, In x (seen_in T g t :: map (seen_in T g) more) -> exists y, x = seen_in T g y /\ sig_text g y).
    { intros x [<-|Hx]; [exists t; split; [reflexivity|apply (proj1 (Ht t (or_introl eq_refl)))]|]. apply in_map_iff in Hx as (y & <- & Hy). exists y. split; [reflexivity|apply (proj1 (Ht y (or_intror Hy)))]. }
    apply group_formed; [exact Hs| |].
    + intros x Hx. destruct (Q x Hx) as (y & -> & Hy). destruct (is_text g) eqn:Eg; [left|right; reflexivity]. rewrite (proj1 (R g y Hy) Eg). exact Hy.
    + intros -> x Hx. destruct (Q x Hx) as (y & -> & Hy). apply (proj2 (R SigRaw y Hy) eq_refl). exact Hr.
  - destruct Hh.
Qed.
Lemma mixed_formed T m c hs c' : simple_uid (t_uid T) -> mixed_ok T m -> no_raw (t_restricted T) m -> mixed_html (t_restricted T) (line_break T) (seen_mixed T m) c = Some (hs, c') -> Forall formed hs.
Proof.
  intros Hu Hm Hr E. destruct m as [p|k items|t|l]; cbn [seen_mixed mixed_html mixed_ok] in *.
  - apply Forall_forall. intros h Hh. eapply word_formed; eauto. assert (hs = SpecSigned.part_html (t_restricted T) (line_break T) (seen_part T p)) as <- by congruence. exact Hh.
  - destruct (list_html k items c) as [[x d]|] eqn:Ex; [|discriminate]. assert (hs = [x]) as -> by congruence. constructor; [|constructor]. destruct Hm as (_ & Ht & _). eapply formed_html; [|exact Ex]. intros t H. apply Ht. exact H.
  - assert (hs = [table_html t]) as -> by congruence. constructor; [|constructor]. eapply formed_table; eauto.
  - assert (hs = [defs_html l]) as -> by congruence. constructor; [|constructor]. apply formed_defs. exact Hm.
Qed.
Lemma page_formed T ms : simple_uid (t_uid T) -> Forall (mixed_ok T) ms -> Forall (no_raw (t_restricted T)) ms -> forall c hs, mixed_page (t_restricted T) (line_break T) (map (seen_mixed T) ms) c = Some hs -> Forall formed hs.
Proof.
  intros Hu. induction ms as [|m ms IH]; intros Hm Hr c hs E; cbn [map mixed_page] in E; [assert (hs = []) as -> by congruence; constructor|]. inversion Hm; inversion Hr; subst.
  destruct (mixed_html _ _ (seen_mixed T m) c) as [[x c1]|] eqn:E1; [|discriminate]. destruct (mixed_page _ _ _ c1) as [l|] eqn:E2; [|discriminate]. assert (hs = x ++ l) as -> by congruence.
  apply Forall_app. split; [eapply mixed_formed; eauto|eapply IH; eauto].
Qed.
Lemma documents_formed W T fuel ms html s : ready T -> t_lite T = false -> (1 < fuel)%nat -> Forall (mixed_ok T) ms -> apart ms -> Forall (no_raw (t_restricted T)) ms ->
  parse W T fuel [] (mixed_source ms) = Ret html s -> formed html.
Proof.
  intros Hr Hl Hf Hm Ha Hn E. pose proof (mixed_documents W T fuel ms Hr Hl Hf Hm Ha) as D. destruct (mixed_page _ _ _ from_one) as [hs|] eqn:Ep; [|congruence].
  destruct D as (s' & D). assert (html = sections hs) as -> by congruence. apply formed_sections. eapply page_formed; eauto. exact (proj1 Hr).
Qed.
(** ** At least as many opening tags as closing tags *)
Lemma attributes_open atts : Forall attribute_ok atts -> ~ In 60 (flat_map attribute_text atts).
Proof.
  intros H F. apply in_flat_map in F as (a & Ha & F). rewrite Forall_forall in H. destruct (H a Ha) as (Hn & _ & H60 & _). unfold attribute_text in F. rewrite !in_app_iff in F.
  assert (K : forallb (fun n => forallb (fun c => negb (c =? 60)) n) attribute_names = true) by (vm_compute; reflexivity).
  assert (L : forall t, forallb (fun c => negb (c =? 60)) t = true -> ~ In 60 t) by (intros t Ht G; rewrite forallb_forall in Ht; apply Ht in G; discriminate).
  rewrite forallb_forall in K. destruct F as [F|[F|[F|[F|F]]]]; [revert F; apply L; vm_compute; reflexivity|revert F; apply L, K, Hn|revert F; apply L; vm_compute; reflexivity|contradiction|revert F; apply L; vm_compute; reflexivity].
Qed.
Lemma formed_surplus x : formed x -> no_open x /\ (0 <= surplus x)%Z.
Proof.
  induction 1 as [t H1 H2|a b Ha [A1 A2] Hb [B1 B2]|b Hb|name atts w Hn Hat Hw [W1 W2]].
  - split; [apply no_open_in; exact H1|rewrite surplus_none by exact H1; reflexivity].
  - split; [apply no_open_app; assumption|rewrite surplus_app by exact A1; lia].
  - destruct Hb as [-> | ->].
    + split; [|vm_compute; discriminate]. assert (u "<br>" = u "<br" ++ [62]) as -> by (vm_compute; reflexivity). apply no_open_last. discriminate.
    + split; [|vm_compute; discriminate]. assert (u "<br />" = u "<br /" ++ [62]) as -> by (vm_compute; reflexivity). apply no_open_last. discriminate.
  - assert (K : forallb (fun n => match n with c :: _ => negb (c =? 47) | [] => false end && forallb (fun c => negb (c =? 60)) n) element_names = true) by (vm_compute; reflexivity).
    rewrite forallb_forall in K. apply K in Hn. apply andb_prop in Hn as [N0 N2]. clear K. assert (N1 : ~ In 60 name) by (intros F; rewrite forallb_forall in N2; apply N2 in F; discriminate).
    change (u "<") with [60]. change (u ">") with [62]. assert (u "</" = [60; 47]) as -> by (vm_compute; reflexivity). apply attributes_open in Hat. set (at_ := flat_map attribute_text atts) in *. clearbody at_. split.
    + replace ([60] ++ name ++ at_ ++ [62] ++ w ++ [60; 47] ++ name ++ [62]) with (([60] ++ name ++ at_ ++ [62] ++ w ++ [60; 47] ++ name) ++ [62]) by (cbn [app]; rewrite <- !app_assoc; cbn [app]; rewrite <- !app_assoc; reflexivity). apply no_open_last. discriminate.
    + destruct name as [|c n]; [discriminate|]. assert (Hc : (c =? 47) = false) by (destruct (c =? 47); [discriminate|reflexivity]).
      assert (E : forall r, surplus ((c :: n) ++ r) = surplus r). { intros r. rewrite surplus_app by (apply no_open_in; exact N1). rewrite (surplus_none (c :: n)) by exact N1. reflexivity. }
      assert (K1 : forall r, surplus ([60] ++ (c :: n) ++ r) = (1 + surplus r)%Z). { intros r. rewrite <- (E r). cbn [surplus app]. rewrite Hc. reflexivity. }
      rewrite K1. rewrite surplus_app by (apply no_open_in; exact Hat). rewrite (surplus_none at_) by exact Hat.
      rewrite (surplus_app [62]) by (apply no_open_in; intros [F|[]]; discriminate). rewrite surplus_app by exact W1.
      assert (K2 : surplus ([60; 47] ++ (c :: n) ++ [62]) = Z.add (-1) (surplus ((c :: n) ++ [62]))) by reflexivity.
      rewrite K2, E. change (surplus [62]) with 0%Z. lia.
Qed.
Lemma not_formed x : (surplus x < 0)%Z -> ~ formed x.
Proof. intros H F. apply formed_surplus in F as [_ F]. lia. Qed.
