(** Attribute specifications: alignments, spans, and the whole. *)
From Verif Require Import Str Unicode Regex RegexParse RegexSnips RegexTheory RegexGroups Lib ModelBase ModelHtml ModelAttrs
  SpecRegex ProofRegex ProofCharref ProofParse ProofParas ProofSpanRe ProofTags ProofLinks ProofSections SpecAtts ProofItems ProofItemsStages ProofItemsClass.
#[local] Arguments u : simpl never.

(** ** Horizontal alignment *)
Definition calm (t : str) : Prop := without (u "<>=()") t.
Definition parens : cls := mk_cls false [CRange 40 40; CRange 41 41].
Definition HALIGN : re :=
  RGroup 1 (RAlt (RSeq (RCls (one 60)) (RNLook (RCls (one 62))))
    (RAlt (RSeq (RNLook (RBack (one 60))) (RCls (one 62)))
    (RAlt (RSeq (RCls (one 60)) (RCls (one 62)))
    (RAlt (RCls (one 61)) (RSeq (RSeq (RCls parens) (RStar true (RCls parens))) (RNLook (RCls (one 32)))))))).
Lemma halign_is : rx_re ATTR_HALIGN_RE = HALIGN. Proof. reflexivity. Qed.
Lemma halign_miss before t : (match t with c :: _ => ~ In c (u "<>=()") | [] => True end) -> match_at HALIGN before t = None.
Proof.
  intros H. unfold match_at, HALIGN. rewrite m_group. destruct t as [|c t].
  - destruct before as [|b before]; [reflexivity|]. rewrite !m_alt, !m_seq, m_nlook, m_back, in_one. destruct (b =? 60); reflexivity.
  - assert (c <> 60 /\ c <> 62 /\ c <> 61 /\ c <> 40 /\ c <> 41) as (H1 & H2 & H3 & H4 & H5) by (repeat split; intros ->; apply H; in_fixed).
    assert (in_cls parens c = false) as Hp by (unfold parens, in_cls; cbn [c_neg c_items existsb in_item]; rewrite !range_one; destruct (N.eqb_spec c 40); [congruence|]; destruct (N.eqb_spec c 41); [congruence|reflexivity]).
    apply N.eqb_neq in H1, H2, H3. rewrite !m_alt, !m_seq, !m_cls, !in_one, H1, H3, Hp. destruct before as [|b before].
    + rewrite m_nlook, m_back_nil, m_cls, in_one, H2. reflexivity.
    + rewrite m_nlook, m_back. destruct (in_cls (one 60) b); [reflexivity|]. rewrite m_cls, in_one, H2. reflexivity.
Qed.
Lemma calm_head t : calm t -> match t with c :: _ => ~ In c (u "<>=()") | [] => True end.
Proof. intros H. destruct t as [|c t]; [exact I|]. intros F. apply (H c F). left. reflexivity. Qed.
Lemma calm_app a b : calm (a ++ b) -> calm a /\ calm b.
Proof. intros H. split; intros c Hc F; apply (H c Hc), in_or_app; auto. Qed.
Lemma halign_none t : calm t -> captures HALIGN t = None.
Proof. intros H. apply captures_no_match. intros a b ->. apply calm_app in H as [_ H]. apply halign_miss, calm_head, H. Qed.
Lemma halign_at a x y : calm x -> calm y -> exists s, match_at HALIGN (rev x) (halign_mark a ++ y) = Some s /\ cap_text 1 (m_caps s) = Some (halign_mark a).
Proof.
  intros Hx Hy. assert (match y with c :: _ => (c =? 62) = false | [] => True end) as Ny by (apply calm_head in Hy; destruct y as [|c y]; [exact I|]; apply N.eqb_neq; intros ->; apply Hy; in_fixed).
  assert (match rev x with c :: _ => (c =? 60) = false | [] => True end) as Nx.
  { assert (~ In 60 (rev x)) as F by (intros F; apply in_rev in F; revert F; apply Hx; in_fixed). destruct (rev x) as [|c r]; [exact I|]. apply N.eqb_neq. intros ->. apply F. left. reflexivity. }
  generalize dependent (rev x). clear x Hx. intros r Nx. unfold match_at, HALIGN. destruct a; cbn [halign_mark].
  - change (u "<") with [60]. exists (mk_mst (60 :: r) y [(1%nat, (60 :: y, y))]). split; [|unfold cap_text; cbn [m_caps find_cap Nat.eqb option_map]; f_equal; apply (cap_str_app [60] y)].
    cbn [app]. rewrite m_group, m_alt, m_seq, m_cls, in_one, N.eqb_refl, m_nlook. destruct y as [|c y]; [reflexivity|]. rewrite m_cls, in_one, Ny. reflexivity.
  - change (u ">") with [62]. exists (mk_mst (62 :: r) y [(1%nat, (62 :: y, y))]). split; [|unfold cap_text; cbn [m_caps find_cap Nat.eqb option_map]; f_equal; apply (cap_str_app [62] y)].
    cbn [app]. rewrite m_group. rewrite m_alt_r by reflexivity. rewrite m_alt, m_seq, m_nlook. destruct r as [|c r]; [reflexivity|]. rewrite m_back, in_one, Nx. reflexivity.
  - change (u "=") with [61]. exists (mk_mst (61 :: r) y [(1%nat, (61 :: y, y))]). split; [|unfold cap_text; cbn [m_caps find_cap Nat.eqb option_map]; f_equal; apply (cap_str_app [61] y)].
    cbn [app]. rewrite m_group. rewrite m_alt_r by reflexivity. rewrite m_alt_r. { rewrite m_alt_r by reflexivity. reflexivity. }
    rewrite m_seq, m_nlook. destruct r as [|c r]; [reflexivity|]. rewrite m_back, in_one, Nx. reflexivity.
  - change (u "<>") with [60; 62]. exists (mk_mst (62 :: 60 :: r) y [(1%nat, (60 :: 62 :: y, y))]). split; [|unfold cap_text; cbn [m_caps find_cap Nat.eqb option_map]; f_equal; apply (cap_str_app [60; 62] y)].
    cbn [app]. rewrite m_group. rewrite m_alt_r by reflexivity. rewrite m_alt_r. { reflexivity. }
    rewrite m_seq, m_nlook. destruct r as [|c r]; [reflexivity|]. rewrite m_back, in_one, Nx. reflexivity.
Qed.
Definition f_halign (x : item) : option (list str) := match x with HAlign a => Some [u "text-align:" ++ halign_name a] | _ => None end.
Section TOP.
Variables (el : element) (restricted : bool).
Let ok := item_ok el restricted.
Lemma halign_stage l s : NoDup (map kind l) -> (forall x, In x l -> ok x) -> (forall x, In x l -> late restricted x) -> (forall x, In x l -> In (kind x) [0; 5; 6; 7; 8; 9; 10]%nat) ->
  halign_style (items_text l) s = Ret (or_nil (pick f_halign l)) s.
Proof.
  intros Hd Hok Hl Hk. assert (forall m, (forall x, In x m -> In x l /\ kind x <> 5%nat) -> calm (items_text m)) as Hc.
  { intros m Hm c Hc. apply free_items. intros x Hx. destruct (Hm x Hx) as [H1 H2]. apply (rest_free el restricted x (Hok x H1) (Hl x H1)); [|exact Hc]. specialize (Hk x H1). cbn [In] in *. intuition congruence. }
  assert (forall x, kind x <> 5%nat -> f_halign x = None) as Hf by (intros [] F; try reflexivity; cbn in F; congruence).
  unfold halign_style. rewrite halign_is. destruct (kind_cases 5 l Hd) as [H|(l1 & x & l2 & E & Hx & Hy)].
  - rewrite halign_none by (apply Hc; intros x Hx; split; [exact Hx|apply H, Hx]). rewrite pick_none by (intros x Hx; apply Hf, H, Hx). reflexivity.
  - destruct x as [| | | | |a| | | | | ]; try discriminate Hx. assert (calm (items_text l1)) as C1 by (apply Hc; intros y F; split; [rewrite E; apply in_or_app; left; exact F|apply Hy, in_or_app; left; exact F]).
    assert (calm (items_text l2)) as C2 by (apply Hc; intros y F; split; [rewrite E; apply in_or_app; right; right; exact F|apply Hy, in_or_app; right; exact F]).
    destruct (halign_at a (items_text l1) (items_text l2) C1 C2) as (st & Es & Ec). rewrite E, items_cut. cbn [item_text]. rewrite (captures_at HALIGN _ _ st); [| |exact Es].
    + unfold bind, capx, mk_hit_of. cbn [h_caps]. rewrite Ec. rewrite pick_cut by (intros y F; apply Hf, Hy, F). destruct a; reflexivity.
    + intros p c q Ep. apply halign_miss. rewrite Ep in C1. apply calm_app in C1 as [_ C1]. exact (calm_head _ C1).
Qed.
(** ** Vertical alignment *)
Lemma first_char x : ok x -> match item_text x with c :: _ => In c (u "{[()<>=^-~\/_.") /\ (kind x <> 6%nat -> ~ In c (u "-^~")) | [] => False end.
Proof.
  intros Ho. destruct x as [ds k|l|l i|n|n|a|v|n|n| | ]; cbn [item_text].
  - split; [in_fixed|]. intros _ F. vm_compute in F. intuition discriminate.
  - split; [in_fixed|]. intros _ F. vm_compute in F. intuition discriminate.
  - split; [in_fixed|]. intros _ F. vm_compute in F. intuition discriminate.
  - destruct n; [cbn in Ho; lia|]. cbn [repeat]. split; [in_fixed|]. intros _ F. vm_compute in F. intuition discriminate.
  - destruct n; [cbn in Ho; lia|]. cbn [repeat]. split; [in_fixed|]. intros _ F. vm_compute in F. intuition discriminate.
  - destruct a; (split; [in_fixed|]; intros _ F; vm_compute in F; intuition discriminate).
  - destruct v; (split; [in_fixed|]; intros F; cbn in F; congruence).
  - split; [in_fixed|]. intros _ F. vm_compute in F. intuition discriminate.
  - split; [in_fixed|]. intros _ F. vm_compute in F. intuition discriminate.
  - split; [in_fixed|]. intros _ F. vm_compute in F. intuition discriminate.
  - split; [in_fixed|]. intros _ F. vm_compute in F. intuition discriminate.
Qed.
Definition vmark : cls := mk_cls false [CRange 45 45; CRange 94 94; CRange 126 126].
Lemma valign_is : rx_re ATTR_VALIGN_RE = RSeq (RAssert SOT) (RCls vmark). Proof. reflexivity. Qed.
Lemma in_vmark c : in_cls vmark c = true -> In c (u "-^~").
Proof. unfold vmark, in_cls. cbn [c_neg c_items existsb in_item]. rewrite !range_one, orb_false_r, xorb_false_l. intros H. apply orb_prop in H as [H|H]; [apply N.eqb_eq in H as ->; in_fixed|]. apply orb_prop in H as [H|H]; apply N.eqb_eq in H as ->; in_fixed. Qed.
Lemma valign_hit c t : in_cls vmark c = true -> exists h, captures (RSeq (RAssert SOT) (RCls vmark)) (c :: t) = Some h /\ h_text h = [c].
Proof.
  intros H. exists (mk_hit_of (c :: t) (mk_mst [c] t [])). split; [|apply (hit_text [c] t); reflexivity]. apply captures_first. unfold match_at. rewrite m_seq, m_assert. cbn [assert_holds is_empty]. rewrite m_cls, H. reflexivity.
Qed.
Definition valign_decl (l : list item) : list str :=
  if cell_or_row el then match l with VAlign v :: _ => [u "vertical-align:" ++ valign_name v] | _ => [] end else [].
Lemma valign_stage l s : (forall x, In x l -> ok x) -> valign_style el (items_text l) s = Ret (valign_decl l) s.
Proof.
  intros Hok. unfold valign_style, valign_decl. change (el_is_td_tr el) with (cell_or_row el). destruct (cell_or_row el); [|reflexivity]. rewrite valign_is.
  assert (forall t, (match t with c :: _ => ~ In c (u "-^~") | [] => True end) -> captures (RSeq (RAssert SOT) (RCls vmark)) t = None) as N.
  { intros t Ht. apply captures_no_match. intros a b ->. unfold match_at. rewrite m_seq, m_assert. destruct a as [|c a].
    - cbn [rev assert_holds is_empty]. destruct b as [|c b]; [reflexivity|]. rewrite m_cls. destruct (in_cls vmark c) eqn:F; [|reflexivity]. apply in_vmark in F. destruct (Ht F).
    - cbn [rev]. destruct (rev a ++ [c]) eqn:F; [destruct (rev a); discriminate|]. reflexivity. }
  destruct l as [|x l]; [rewrite N by exact I; reflexivity|]. pose proof (first_char x (Hok x (or_introl eq_refl))) as F. destruct (Nat.eq_dec (kind x) 6) as [E|E].
  - destruct x as [| | | | | |v| | | | ]; try discriminate E. destruct v.
    + destruct (valign_hit 94 (items_text l) eq_refl) as (h & Eh & Et). change (items_text (VAlign Top :: l)) with (94 :: items_text l). rewrite Eh, Et. reflexivity.
    + destruct (valign_hit 45 (items_text l) eq_refl) as (h & Eh & Et). change (items_text (VAlign Middle :: l)) with (45 :: items_text l). rewrite Eh, Et. reflexivity.
    + destruct (valign_hit 126 (items_text l) eq_refl) as (h & Eh & Et). change (items_text (VAlign Bottom :: l)) with (126 :: items_text l). rewrite Eh, Et. reflexivity.
  - rewrite N.
    + destruct x; try reflexivity. cbn in E. congruence.
    + cbn [items_text flat_map]. destruct (item_text x) as [|c w]; [destruct F|]. cbn [app]. apply F, E.
Qed.
(** ** Spans of cells *)
Lemma marks_not_digits : forallb (fun c => negb (in_cls nd c)) (u "{[()<>=^-~\/_.") = true.
Proof. vm_compute. reflexivity. Qed.
Lemma no_digit_next l : (forall x, In x l -> ok x) -> match items_text l with c :: _ => in_cls nd c = false | [] => True end.
Proof.
  intros Hok. destruct l as [|x l]; [exact I|]. pose proof (first_char x (Hok x (or_introl eq_refl))) as F. cbn [items_text flat_map]. destruct (item_text x) as [|c w]; [destruct F|]. cbn [app]. destruct F as [F _].
  pose proof marks_not_digits as E. rewrite forallb_forall in E. apply E in F. apply negb_true_iff in F. exact F.
Qed.
Lemma span_stage o k (f : item -> option str) l : NoDup (map kind l) -> (forall x, In x l -> ok x) -> (forall x, kind x <> k -> f x = None) ->
  (forall x, kind x = k -> exists n, item_text x = o :: dec n /\ f x = Some (dec n)) -> (forall x, In x l -> kind x <> k -> ~ In o (item_text x)) ->
  match captures (number_re o) (items_text l) with Some h => cap_opt 1 h | None => None end = pick f l.
Proof.
  intros Hd Hok Hf Hx Ho.
  assert (forall l1 x l2, l = l1 ++ x :: l2 -> kind x = k -> ~ In o (items_text l1) -> exists h, captures (number_re o) (items_text l) = Some h /\ h_text h = item_text x /\ cap_opt 1 h = f x) as Hc.
  { intros l1 x l2 E Hk H1. destruct (Hx x Hk) as (n & En & Ef). assert (match items_text l2 with c :: _ => in_cls nd c = false | [] => True end) as Nd by (apply no_digit_next; intros y F; apply Hok; rewrite E; apply in_or_app; right; right; exact F).
    destruct (number_at o (rev (items_text l1)) n (items_text l2) Nd) as (s & Es & Ea & Ec). eexists. split; [|split].
    - rewrite E, items_cut, En. apply captures_at; [|exact Es]. apply (start_skip o). exact H1.
    - rewrite En. apply hit_text. exact Ea.
    - unfold cap_opt, mk_hit_of. cbn [h_caps]. rewrite Ec. symmetry. exact Ef. }
  destruct (stage (number_re o) o k l Hd) as [(E & F)|(l1 & x & l2 & h & E & Hk & Hy & H1 & H2 & Eh & Et & Ee)].
  - exact Ho.
  - intros t Ht. apply (start_none o). exact Ht.
  - intros l1 x l2 E Hk H1 H2. destruct (Hc l1 x l2 E Hk H1) as (h & Hh & Ht & _). destruct (Hx x Hk) as (n & En & _). exists (dec n). split; [exact En|]. exists h. split; assumption.
  - rewrite E. rewrite pick_none by (intros x Hi; apply Hf, F, Hi). reflexivity.
  - destruct (Hc l1 x l2 E Hk H1) as (h' & Hh' & _ & Hv). assert (h' = h) as -> by congruence. rewrite Eh, Hv, E. rewrite pick_cut by (intros y F; apply Hf, Hy, F). reflexivity.
Qed.
Definition f_col (x : item) : option str := match x with ColSpan n => Some (dec n) | _ => None end.
Definition f_row (x : item) : option str := match x with RowSpan n => Some (dec n) | _ => None end.
Lemma colspan_stage l : NoDup (map kind l) -> (forall x, In x l -> ok x) -> (if el_is_td el then first_group COLSPAN_RE (items_text l) else None) = (if cell el then pick f_col l else None).
Proof.
  intros Hd Hok. change (el_is_td el) with (cell el). destruct (cell el) eqn:Ee; [|reflexivity]. assert (el = ElTd) as He by (destruct el; try discriminate; reflexivity).
  unfold first_group. change (rx_re COLSPAN_RE) with (number_re 92). apply (span_stage 92 7); auto.
  - intros [] F; try reflexivity. cbn in F. congruence.
  - intros [] F; try discriminate F. eexists. split; reflexivity.
  - intros x Hx Hk. apply (slash_free el restricted _ x He (Hok x Hx)). left. auto.
Qed.
Lemma rowspan_stage l : NoDup (map kind l) -> (forall x, In x l -> ok x) -> (if el_is_td el then first_group ROWSPAN_RE (items_text l) else None) = (if cell el then pick f_row l else None).
Proof.
  intros Hd Hok. change (el_is_td el) with (cell el). destruct (cell el) eqn:Ee; [|reflexivity]. assert (el = ElTd) as He by (destruct el; try discriminate; reflexivity).
  unfold first_group. change (rx_re ROWSPAN_RE) with (number_re 47). apply (span_stage 47 8); auto.
  - intros [] F; try reflexivity. cbn in F. congruence.
  - intros [] F; try discriminate F. eexists. split; reflexivity.
  - intros x Hx Hk. apply (slash_free el restricted _ x He (Hok x Hx)). right. auto.
Qed.

(** ** The whole specification *)
Lemma kept_is l : filter (kept restricted) l = rem 1 (if restricted then l else rem 0 l).
Proof.
  induction l as [|x l IH]; [destruct restricted; reflexivity|]. cbn [filter]. rewrite IH. destruct restricted; destruct x; reflexivity.
Qed.
Lemma ok_rem k l : (forall x, In x l -> ok x) -> forall x, In x (rem k l) -> ok x.
Proof. intros H x Hx. apply in_rem in Hx as [Hx _]. apply H, Hx. Qed.
Lemma nodup_rem k l : NoDup (map kind l) -> NoDup (map kind (rem k l)).
Proof. apply nodup_filter. Qed.
Lemma attrs_order (a b c d e g : option str) : ba_html_attrs (mk_ba b g a c e d None None) =
  attribute "class" a ++ attribute "colspan" b ++ attribute "id" c ++ attribute "lang" d ++ attribute "rowspan" e ++ attribute "style" g.
Proof. destruct a, b, c, d, e, g; reflexivity. Qed.
Lemma items_empty l : (forall x, In x l -> ok x) -> is_empty (items_text l) = match l with [] => true | _ => false end.
Proof.
  intros H. destruct l as [|x l]; [reflexivity|]. pose proof (first_char x (H x (or_introl eq_refl))) as F. cbn [items_text flat_map]. destruct (item_text x); [destruct F|reflexivity].
Qed.
(** What is read, field by field. *)
Definition sheet (with_id : bool) (l : list item) : block_attrs :=
  mk_ba (if cell el then pick f_col l else None)
    (match declarations el restricted l with [] => None | ds => Some (join (u "; ") ds ++ u ";") end)
    (if restricted then None else pick f_class l)
    (if restricted || negb with_id then None else pick f_id l)
    (if cell el then pick f_row l else None) (pick f_lang l) None None.
Lemma sheet_attrs with_id l : ba_html_attrs (sheet with_id l) = meant el with_id restricted l.
Proof. unfold sheet. rewrite attrs_order. reflexivity. Qed.
Lemma parse_sheet l with_id s : el <> ElCol -> items_ok el restricted l -> block_attributes_parse (items_text l) el with_id restricted s = Ret (sheet with_id l) s.
Proof.
  intros Hel (Hd & Hok & Hp). fold ok in Hok. unfold block_attributes_parse. rewrite items_empty by exact Hok. destruct l as [|x0 l0].
  { unfold sheet, declarations, ba_default. destruct el, with_id, restricted; reflexivity. }
  set (l := x0 :: l0) in *. clearbody l. rewrite (colspan_stage l Hd Hok), (rowspan_stage l Hd Hok). unfold bind at 1. rewrite (valign_stage l s Hok).
  set (l1 := if restricted then l else rem 0 l).
  assert ((if restricted then ([], items_text l) else match captures (rx_re ATTR_STYLE_RE) (items_text l) with
         | Some h => (map trim (split_char 59 (trim_end_matches 59 (cap_or 1 h))), erase (items_text l) h)
         | None => ([], items_text l) end) = (if restricted then [] else or_nil (pick f_style l), items_text l1)) as ->.
  { unfold l1. destruct restricted eqn:Er; [reflexivity|]. apply (style_stage el false); [exact Hd|exact Hok]. }
  assert (NoDup (map kind l1)) as D1 by (unfold l1; destruct restricted; [exact Hd|apply nodup_rem; exact Hd]).
  assert (forall x, In x l1 -> ok x) as O1 by (unfold l1; case restricted; [exact Hok|apply ok_rem; exact Hok]).
  rewrite (lang_stage el restricted l1 D1 O1).
  2:{ intros x Hx. unfold l1 in Hx. destruct restricted; [right; reflexivity|left]. apply in_rem in Hx. apply Hx. }
  set (l2 := rem 1 l1). assert (l2 = filter (kept restricted) l) as E2 by (symmetry; apply kept_is).
  assert (NoDup (map kind l2)) as D2 by (apply nodup_rem; exact D1). assert (forall x, In x l2 -> ok x) as O2 by (apply ok_rem; exact O1).
  assert (forall x, In x l2 -> late restricted x) as L2 by (rewrite E2; intros x Hx; apply filter_In in Hx; apply Hx).
  rewrite (class_stage el restricted l2 D2 O2 L2) by (rewrite E2; exact Hp).
  set (l3 := rem 2 l2). assert (NoDup (map kind l3)) as D3 by (apply nodup_rem; exact D2). assert (forall x, In x l3 -> ok x) as O3 by (apply ok_rem; exact O2).
  assert (forall x, In x l3 -> late restricted x /\ kind x <> 2%nat) as L3 by (intros x Hx; apply in_rem in Hx as [Hx Hk]; split; [apply L2, Hx|exact Hk]).
  change (rx_re ATTR_PADDING_LEFT_RE) with (run_re 40). change (rx_re ATTR_PADDING_RIGHT_RE) with (run_re 41).
  rewrite (pad_stage el restricted l3 D3 O3 40 3 f_padl "padding-left:").
  2:{ reflexivity. }
  2:{ intros [] F; try reflexivity. cbn in F. congruence. }
  2:{ intros [] F Ho; try discriminate F. destruct n as [|n]; [cbn in Ho; lia|]. exists n. split; reflexivity. }
  2:{ intros x Hx Hk. destruct (L3 x Hx) as [Hl H2]. apply (paren_free el restricted 40 x (O3 x Hx) Hl H2). left. auto. }
  set (l4 := rem 3 l3). assert (NoDup (map kind l4)) as D4 by (apply nodup_rem; exact D3). assert (forall x, In x l4 -> ok x) as O4 by (apply ok_rem; exact O3).
  assert (forall x, In x l4 -> late restricted x /\ kind x <> 2%nat /\ kind x <> 3%nat) as L4 by (intros x Hx; apply in_rem in Hx as [Hx Hk]; destruct (L3 x Hx); auto).
  rewrite (pad_stage el restricted l4 D4 O4 41 4 f_padr "padding-right:").
  2:{ reflexivity. }
  2:{ intros [] F; try reflexivity. cbn in F. congruence. }
  2:{ intros [] F Ho; try discriminate F. destruct n as [|n]; [cbn in Ho; lia|]. exists n. split; reflexivity. }
  2:{ intros x Hx Hk. destruct (L4 x Hx) as (Hl & H2 & _). apply (paren_free el restricted 41 x (O4 x Hx) Hl H2). right. auto. }
  set (l5 := rem 4 l4). assert (NoDup (map kind l5)) as D5 by (apply nodup_rem; exact D4). assert (forall x, In x l5 -> ok x) as O5 by (apply ok_rem; exact O4).
  assert (forall x, In x l5 -> late restricted x /\ kind x <> 2%nat /\ kind x <> 3%nat /\ kind x <> 4%nat) as L5 by (intros x Hx; apply in_rem in Hx as [Hx Hk]; destruct (L4 x Hx) as (? & ? & ?); auto).
  unfold bind. rewrite (halign_stage l5 s D5 O5).
  2:{ intros x Hx. apply (L5 x Hx). }
  2:{ intros x Hx. destruct (L5 x Hx) as (Hl & H2 & H3 & H4). destruct x; cbn [kind In] in *; try congruence; try discriminate Hl; auto 10. }
  assert (forall A (f : item -> option A) k, (forall x, kind x = k -> f x = None) -> forall m, pick f (rem k m) = pick f m) as P by (intros; apply pick_rem; assumption).
  assert (el_is_col el = false) as -> by (clear - Hel; destruct el; try reflexivity; congruence).
  unfold ret, sheet. f_equal.
  assert (pick f_lang l1 = pick f_lang l) as -> by (unfold l1; destruct restricted; [reflexivity|]; apply P; intros [] F; try reflexivity; discriminate F).
  assert (forall A (f : item -> option A), (forall x, In (kind x) [0; 1]%nat -> f x = None) -> pick f l2 = pick f l) as P2.
  { intros A f Hf. unfold l2. rewrite P by (intros x F; apply Hf; rewrite F; right; left; reflexivity). unfold l1. destruct restricted; [reflexivity|]. apply P. intros x F. apply Hf. rewrite F. left. reflexivity. }
  rewrite (P2 _ f_class) by (intros [] F; try reflexivity; cbn in F; intuition discriminate).
  rewrite (P2 _ f_id) by (intros [] F; try reflexivity; cbn in F; intuition discriminate).
  assert (pick f_padl l3 = pick f_padl l) as -> by (unfold l3; rewrite P by (intros [] F; try reflexivity; discriminate F); apply P2; intros [] F; try reflexivity; cbn in F; intuition discriminate).
  assert (pick f_padr l4 = pick f_padr l) as -> by (unfold l4; rewrite P by (intros [] F; try reflexivity; discriminate F); unfold l3; rewrite P by (intros [] F; try reflexivity; discriminate F); apply P2; intros [] F; try reflexivity; cbn in F; intuition discriminate).
  assert (pick f_halign l5 = pick f_halign l) as -> by (unfold l5; rewrite P by (intros [] F; try reflexivity; discriminate F); unfold l4; rewrite P by (intros [] F; try reflexivity; discriminate F); unfold l3; rewrite P by (intros [] F; try reflexivity; discriminate F); apply P2; intros [] F; try reflexivity; cbn in F; intuition discriminate).
  change (valign_decl l ++ (if restricted then [] else or_nil (pick f_style l)) ++ or_nil (pick f_padl l) ++ or_nil (pick f_padr l) ++ or_nil (pick f_halign l)) with (declarations el restricted l).
  generalize (declarations el restricted l). intros ds. destruct with_id, restricted, ds; reflexivity.
Qed.
Theorem parse_items l with_id s : el <> ElCol -> items_ok el restricted l ->
  exists a, block_attributes_parse (items_text l) el with_id restricted s = Ret a s /\ ba_html_attrs a = meant el with_id restricted l.
Proof. intros He Hl. exists (sheet with_id l). split; [apply parse_sheet; assumption|apply sheet_attrs]. Qed.
End TOP.
