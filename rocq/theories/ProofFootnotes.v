(** Documents with footnotes. *)
From Verif Require Import Str Unicode Regex RegexParse RegexSnips RegexTheory RegexAuto RegexGroups Lib ModelBase ModelHtml ModelUrl ModelAttrs ModelInline ModelParser
  SpecRegex ProofRegex SpecParse Logic ProofWalk ProofState SpecState ProofMemory ProofCache ProofLinks ProofCharref ProofParse ProofDoc SpecPlain ProofPlain ProofParas SpecText ProofText ProofWeave ProofListText ProofTags
  SpecNewlines ProofNewlines ProofSections ProofBlocks SpecDoc ProofDocument ProofSpecial ProofSigned ProofLinked SpecImages ProofImaged ProofPieces ProofSteps SpecLists ProofListDoc SpecFootnotes ProofFootAuto ProofFootHits ProofFootText.
#[local] Arguments u : simpl never.

(** ** One paragraph without newlines *)
Lemma no_nl_never t : ~ In 10 t -> no_match (rx_re PBR_BR_RE) t /\ no_match (rx_re PBR_NEWLINE_RE) t.
Proof.
  intros H. set (A := mk_auto [(0%nat, mk_cls true [CRange 10 10], 0%nat)] 0%nat [0%nat]).
  assert (accepts A t) as Ha.
  { unfold accepts. change (au_start A) with 0%nat. induction t as [|c t IH]; [constructor; left; reflexivity|]. eapply SufCons with (q' := 0%nat); [left; reflexivity| |apply IH; intros F; apply H; right; exact F].
    unfold in_cls. cbn [c_neg c_items existsb in_item]. destruct (N.leb_spec 10 c), (N.leb_spec c 10); cbn [andb orb xorb]; auto. exfalso. apply H. left. lia. }
  split; (eapply never_ok; [exact Ha|]; vm_compute; reflexivity).
Qed.
Lemma p_br_line T att t : ~ In 62 att -> (att = [] \/ exists w, att = 32 :: w) -> ~ In 10 t -> forall s, do_p_br T (tagged (u "p") att t) s = Ret (tagged (u "p") att t) s.
Proof.
  intros Ha Hs H10 s. destruct (no_nl_never t H10) as [B1 B2]. assert (In (u "p") PBR_NAMES) as Hp by (vm_compute; auto).
  assert (no_pclose []) as Hc by (intros a b E; destruct a; discriminate).
  destruct (pbr_hit [] (u "p") att t [] Hp Ha Hs Hc) as (st & M & Ma & C1 & C2 & C3 & C4).
  unfold do_p_br, replace_allM, segs. rewrite <- (app_nil_r (tagged (u "p") att t)) at 1. rewrite (scan_take _ [] (tagged (u "p") att t) [] st false ltac:(discriminate) M Ma), scan_nil.
  cbn [mapM replace_segM]. unfold f_p_br, bind, capx, mk_hit_of. cbn [h_caps]. rewrite C1, C2, C3, C4. cbn [of_opt]. unfold ret. cbn [List.concat].
  rewrite (replace_all_no_match _ _ t B1), (replace_all_no_match _ _ t B2). rewrite app_nil_r. reflexivity.
Qed.

(** ** The signature of a footnote *)
Definition nd : cls := mk_cls false [CProp false PNd].
Definition fn_name : re := RSeq (RCls (one 102)) (RSeq (RCls (one 110)) (RSeq (RCls nd) (RStar true (RCls nd)))).
Lemma fn_names before w cs k y : m fn_name (mk_mst before (102 :: w) cs) k = Some y -> m (tag_names TEXTILE_TAG_RE) (mk_mst before (102 :: w) cs) k = Some y.
Proof.
  intros H. unfold tag_names. cbn [rx_re TEXTILE_TAG_RE]. do 5 (rewrite m_alt_r by (rewrite m_seq, m_cls; reflexivity)). apply m_alt_l. exact H.
Qed.
Definition hat (back : bool) : str := if back then [94] else [].
Lemma digits_nd : forallb (in_cls nd) digit_chars = true.
Proof. vm_compute. reflexivity. Qed.
Lemma nd_stops : in_cls nd 46 = false /\ in_cls nd 94 = false.
Proof. vm_compute. auto. Qed.
Lemma hat_skip b bs back rest cs k y : In b digit_chars -> k (mk_mst (rev (hat back) ++ b :: bs) (46 :: rest) cs) = Some y -> m tag_atts (mk_mst (b :: bs) (hat back ++ 46 :: rest) cs) k = Some y.
Proof.
  intros H Hk. change digit_chars with [48; 49; 50; 51; 52; 53; 54; 55; 56; 57] in H. destruct back; cbn [hat app rev] in *; repeat (destruct H as [<-|H]; [lazy; match goal with |- match ?ks with _ => _ end = ?z => replace ks with z by (symmetry; exact Hk); reflexivity | _ => exact Hk end|]); destruct H.
Qed.
Lemma fn_captures n back t : footnote_number n ->
  exists h, captures (rx_re TEXTILE_TAG_RE) (102 :: 110 :: n ++ hat back ++ 46 :: 32 :: t) = Some h /\
    cap_text 1 (h_caps h) = Some (102 :: 110 :: n) /\ cap_text 2 (h_caps h) = Some (hat back) /\ cap_text 3 (h_caps h) = Some [] /\ cap_text 4 (h_caps h) = None /\ cap_text 5 (h_caps h) = Some t.
Proof.
  intros Hn. destruct (number_chars n Hn) as [N1 N2]. assert (Hnd : forallb (in_cls nd) n = true). { apply forallb_forall. intros c Hc. pose proof digits_nd as D. rewrite forallb_forall in D. apply D, N2, Hc. }
  set (rest := 46 :: 32 :: t). set (text := 102 :: 110 :: n ++ hat back ++ rest).
  assert (exists b bs, rev n ++ [110; 102] = b :: bs /\ In b digit_chars) as (b & bs & Eb & Hb).
  { destruct (rev n) as [|x z] eqn:E; [exfalso; apply N1; rewrite <- (rev_involutive n), E; reflexivity|]. exists x, (z ++ [110; 102]). split; [reflexivity|]. apply N2, in_rev. rewrite E. left. reflexivity. }
  pose proof (rest_take (rev (hat back) ++ b :: bs) [(2%nat, (hat back ++ rest, rest)); (1%nat, (text, hat back ++ rest))] t) as R. fold rest in R. match type of R with _ = Some ?x => set (s := x) in * end.
  assert (match_at (rx_re TEXTILE_TAG_RE) [] text = Some s) as E.
  { unfold match_at. rewrite tag_shape, m_seq, m_assert. change (assert_holds SOT [] text) with true. cbv iota. rewrite m_seq, m_group. unfold text at 1. apply fn_names.
    unfold fn_name. rewrite m_seq, m_cls, in_one. cbn [N.eqb Pos.eqb]. rewrite m_seq, m_cls, in_one. cbn [N.eqb Pos.eqb]. rewrite m_seq.
    destruct n as [|d n']; [congruence|]. cbn [forallb] in Hnd. apply andb_prop in Hnd as [D1 D2]. cbn [app]. rewrite m_cls, D1.
    destruct nd_stops as [S1 S2]. apply m_star_greedy; [exact D2|unfold rest; destruct back; [exact S2|exact S1]|]. cbn [m_before m_after m_caps].
    rewrite m_seq, m_group. assert (rev n' ++ [d; 110; 102] = b :: bs) as Eb2 by (rewrite <- Eb; cbn [rev]; rewrite <- app_assoc; reflexivity). rewrite Eb2. unfold rest at 1. apply hat_skip; [exact Hb|]. cbn [m_before m_after m_caps]. exact R. }
  exists (mk_hit_of text s). split.
  - unfold captures, find_first, find_from. unfold text in *. rewrite E. reflexivity.
  - unfold mk_hit_of, s. cbn [h_caps m_caps]. unfold cap_text. cbn [find_cap Nat.eqb option_map]. repeat split; f_equal.
    + unfold text. apply (cap_str_app (102 :: 110 :: n) (hat back ++ rest)). + apply cap_str_app. + apply (cap_str_app [] (32 :: t)). + rewrite <- (app_nil_r t) at 1. apply cap_str_app.
Qed.
Lemma fnid n : footnote_number n -> exists h, captures (rx_re FNID_RE) (102 :: 110 :: n) = Some h /\ cap_text 1 (h_caps h) = Some n.
Proof.
  intros [N1 N2]. pose proof (number_numeral n N2) as Hn. destruct n as [|d n]; [congruence|]. cbn [forallb] in Hn. apply andb_prop in Hn as [D1 D2].
  assert (match_at (rx_re FNID_RE) [] (102 :: 110 :: d :: n) = Some (mk_mst (rev n ++ [d; 110; 102]) [] [(1%nat, (d :: n, []))])) as E.
  { unfold match_at. change (rx_re FNID_RE) with (RSeq (RCls (one 102)) (RSeq (RCls (one 110)) (RGroup 1 (RSeq (RCls numeral) (RStar true (RCls numeral)))))).
    rewrite m_seq, m_cls, in_one. cbn [N.eqb Pos.eqb]. rewrite m_seq, m_cls, in_one. cbn [N.eqb Pos.eqb]. rewrite m_group, m_seq, m_cls, D1.
    rewrite <- (app_nil_r n) at 1. apply m_star_greedy; [exact D2|exact I|]. reflexivity. }
  exists (mk_hit_of (102 :: 110 :: d :: n) (mk_mst (rev n ++ [d; 110; 102]) [] [(1%nat, (d :: n, []))])). split.
  - unfold captures, find_first, find_from. rewrite E. reflexivity.
  - unfold mk_hit_of. cbn [h_caps m_caps]. unfold cap_text. cbn [find_cap Nat.eqb option_map]. f_equal. rewrite <- (app_nil_r (d :: n)) at 1. apply cap_str_app.
Qed.

Lemma absent_62 l : existsb (N.eqb 62) l = false -> ~ In 62 l.
Proof. intros H F. assert (existsb (N.eqb 62) l = true) as E by (apply existsb_exists; exists 62; split; [exact F|apply N.eqb_refl]). congruence. Qed.
Section Foot.
Variables (W : world) (T : textile).
Hypothesis uid_simple : simple_uid (t_uid T).
Hypothesis not_lite : t_lite T = false.
Notation prefix := (t_link_prefix T).
Hypothesis prefix_fine : prefix_ok prefix.
Let uid_ok : uid_plain (t_uid T) = true := uid_simple_plain _ uid_simple.

Definition good (c : SpecFootnotes.table) (s : pstate) : Prop := @cache_ok (own T) (ps_cache s) /\ ps_borrowed s = false /\ ps_notes s = [] /\ ps_shelf s = [] /\ at_table T c s.
Definition becomes {A} (c c' : SpecFootnotes.table) (x : M A) (y : A) : Prop := forall s, good c s -> exists s', x s = Ret y s' /\ good c' s'.
Lemma becomes_bind {A B} c c1 c2 (x : M A) (k : A -> M B) y z : becomes c c1 x y -> becomes c1 c2 (k y) z -> becomes c c2 (bind x k) z.
Proof. intros H1 H2 s Hs. destruct (H1 s Hs) as (s1 & E1 & G1). destruct (H2 s1 G1) as (s2 & E2 & G2). exists s2. split; [|exact G2]. unfold bind. rewrite E1. exact E2. Qed.
Lemma leaves_becomes {A} c (x : M A) y : leaves T x y -> becomes c c x y.
Proof. intros H s (G1 & G2 & G3). destruct (H s G1 G2) as (k & Hk & E). exists (set_cache k s). split; [exact E|]. split; [exact Hk|]. split; [exact G2|]. exact G3. Qed.
Lemma nls : nl ++ nl = [10; 10].
Proof. reflexivity. Qed.

(** Before the references. *)
Section Graf.
Variables (fuel n : nat) (y : str) (c c' : SpecFootnotes.table) (A : auto).
Hypothesis Hf : (0 < fuel)%nat.
Hypothesis quiet_tail : forallb (fun r => never (tailed_of A) (rx_re r)) (early_rx ++ TAG_PATTERNS) = true.
Variable t : str.
Hypothesis Ht : accepts A t.
Hypothesis needle_out : contains (needle (t_uid T)) t = false.
Hypothesis refs : becomes c c' (footnote_ref T (t ++ nl ++ nl)) (y ++ nl ++ nl).
Hypothesis notes : no_match (rx_re NOTEREF_RE) (y ++ nl ++ nl).
Hypothesis glyphless : forall s, glyphs T y s = Ret y s.
Hypothesis ended : trim_end_matches 10 y = y.
Lemma graf_refs : becomes c c' (graf_n W T fuel (S n) t) y.
Proof.
  destruct (tailed_both A t Ht) as [H1 H2]. cbn [graf_n]. unfold graf_body. rewrite not_lite.
  assert (L : forall r, In r (early_rx ++ TAG_PATTERNS) -> no_match (rx_re r) t) by (intros r Hr; eapply never_rx; [exact quiet_tail|exact H1|exact Hr]).
  assert (L2 : forall r, In r (early_rx ++ TAG_PATTERNS) -> no_match (rx_re r) (t ++ nl ++ nl)) by (intros r Hr; eapply never_rx; [exact quiet_tail|exact H2|exact Hr]).
  assert (E1 : forall r, In r early_rx -> no_match (rx_re r) t) by (intros r Hr; apply L, in_or_app; left; exact Hr).
  assert (E2 : forall r, In r early_rx -> no_match (rx_re r) (t ++ nl ++ nl)) by (intros r Hr; apply L2, in_or_app; left; exact Hr).
  eapply becomes_bind with (y := t). { apply leaves_becomes. unfold no_textile. eapply leaves_bind; apply leaves_replace, E1; cbn [In early_rx]; tauto. }
  eapply becomes_bind with (y := t). { apply leaves_becomes. unfold code. eapply leaves_bind; [apply leaves_replace, E1; cbn [In early_rx]; tauto|]. eapply leaves_bind; apply leaves_replace, E1; cbn [In early_rx]; tauto. }
  eapply becomes_bind with (y := t). { apply leaves_becomes, leaves_replace, E1. cbn [In early_rx]; tauto. }
  eapply becomes_bind with (y := t). { apply leaves_becomes. unfold get_refs. destruct (t_restricted T); apply leaves_replace, E1; cbn [In early_rx]; tauto. }
  eapply becomes_bind with (y := t). { apply leaves_becomes, leaves_replace, E1. cbn [In early_rx]; tauto. }
  eapply becomes_bind with (y := t). { apply leaves_becomes, links_inert; auto. apply E1. cbn [In early_rx]; tauto. }
  eapply becomes_bind with (y := t). { apply leaves_becomes, leaves_if; intros El; [apply leaves_ret|]. apply leaves_replace, E1. cbn [In early_rx]; tauto. }
  eapply becomes_bind with (y := t ++ nl ++ nl). { apply leaves_becomes. unfold ModelParser.table. rewrite captures_no_match; [apply leaves_ret|]. apply E2; cbn [In early_rx]; tauto. }
  eapply becomes_bind with (y := t ++ nl ++ nl). { apply leaves_becomes, leaves_replace, E2. cbn [In early_rx]; tauto. }
  eapply becomes_bind with (y := t ++ nl ++ nl). { apply leaves_becomes, leaves_replace, E2. cbn [In early_rx]; tauto. }
  eapply becomes_bind with (y := t ++ nl ++ nl). { apply leaves_becomes, leaves_pure, span_inert. intros r Hr. apply L2, in_or_app. right. exact Hr. }
  eapply becomes_bind; [exact refs|].
  eapply becomes_bind with (y := y ++ nl ++ nl). { apply leaves_becomes, leaves_replace, notes. }
  eapply becomes_bind with (y := y).
  { apply leaves_becomes, leaves_pure. intros s. pose proof (glyphless s) as G. unfold glyphs in *. rewrite nls, trim_end_snoc. exact G. }
  rewrite ended. apply leaves_becomes, leaves_ret.
Qed.
End Graf.

(** ** Lines *)
Lemma line_piece t l : proper_passage (Line t l) -> piece_of T (passage_source (Line t l)).
Proof.
  intros Hp. pose proof (line_source t l Hp) as H. set (x := passage_source (Line t l)) in *.
  assert (B : forall r, In r small_re -> no_match r x) by (intros r Hr; eapply never_in; [exact fsource_small|exact H|exact Hr]).
  assert (R : forall r, In r [TEXTILE_TAG_RE; DIVIDER_RE; NOTEDEF_RE] -> no_match (rx_re r) x) by (intros r Hr; eapply never_rx; [exact fsource_piece|exact H|exact Hr]).
  constructor.
  - apply firm_of; apply B; cbn [In small_re]; tauto.
  - intros _. apply esc_id; apply no_match_ch, B; cbn [In small_re]; tauto.
  - apply lead_absent; auto. apply B; cbn [In small_re]; tauto.
  - rewrite not_lite. apply R. cbn [In]; tauto.
  - apply R. cbn [In]; tauto.
  - apply R. cbn [In]; tauto.
  - destruct x as [|b r] eqn:Ex; [inversion H as [q Hq|]; cbn in Hq; intuition discriminate|]. exists b, r. split; [reflexivity|]. pose proof (no_start_cls space_cls b r) as E. rewrite <- E; [|apply B; cbn [In small_re]; tauto].
    unfold in_cls, space_cls. cbn [c_neg c_items existsb in_item has_prop]. destruct (is_ws b); reflexivity.
Qed.
Lemma element_tagged t : element (u "p") t = tagged (u "p") [] t.
Proof. unfold element, tagged. change (u "<") with [60]. change (u ">") with [62]. change (u "</") with [60; 47]. change (u "p") with [112]. cbn [app]. reflexivity. Qed.
Lemma single_page p c : proper_passage p -> accepts fpage_a (fst (passage_html prefix p c)).
Proof. intros Hp. unfold accepts. rewrite <- (app_nil_r (fst (passage_html prefix p c))). apply (passage_page T prefix_fine); [exact Hp|]. constructor. left. reflexivity. Qed.
Lemma page_brs p c : proper_passage p -> replace_all (rx_re BR_TAG_RE) (fun _ => br_tag T) (fst (passage_html prefix p c)) = fst (passage_html prefix p c).
Proof. intros Hp. apply replace_all_no_match. eapply never_rx; [exact fpage_quiet|apply single_page, Hp|cbn [In]; tauto]. Qed.
Lemma graf_line fuel t l c : (0 < fuel)%nat -> proper_passage (Line t l) ->
  becomes c (snd (references_html prefix l c)) (graf W T fuel (passage_source (Line t l))) (t ++ fst (references_html prefix l c)).
Proof.
  intros Hf Hp. destruct fuel as [|n]; [lia|]. unfold graf. pose proof (line_source t l Hp) as H. pose proof (line_result T prefix_fine t l c Hp) as Hr.
  apply graf_refs with (A := fsource_a).
  - lia.
  - exact fsource_quiet.
  - exact H.
  - unfold needle. apply contains_more, lead_absent; auto. eapply never_in; [exact fsource_small|exact H|]. cbn [In small_re]; tauto.
  - intros s (G1 & G2 & G3 & G4 & G5). destruct Hp as [P1 P2]. destruct (first_spaced t l P1) as [F1 F2]. destruct (foot_refs T prefix_fine t l c s F1 (refs_spaced l P2) F2 G5) as (s' & E & A & (K1 & K2 & K3 & K4)).
    exists s'. split; [|split; [rewrite K1; exact G1|]; split; [rewrite K2; exact G2|]; split; [rewrite K3; exact G3|]; split; [rewrite K4; exact G4|exact A]].
    cbn [passage_source]. rewrite nls, <- !app_assoc. exact E.
  - refine (never_ok _ _ _ _ fresult_quiet). apply tailed_both. exact Hr.
  - apply (glyphs_weave fresult_a fsup_tags fresult_tagged); [exact Hr|]. apply no_end_newline. eapply never_in; [exact fresult_ends|exact Hr|]. right. left. reflexivity.
  - apply no_end_newline. eapply never_in; [exact fresult_ends|exact Hr|]. right. left. reflexivity.
Qed.
Lemma line_step fuel t l c s : (0 < fuel)%nat -> proper_passage (Line t l) -> good c s ->
  exists s', step_as W T fuel (passage_source (Line t l)) (fst (passage_html prefix (Line t l) c)) s s' /\ good (snd (passage_html prefix (Line t l) c)) s'.
Proof.
  intros Hf Hp Hs. destruct (graf_line fuel t l c Hf Hp s Hs) as (s' & E & G). pose proof (line_result T prefix_fine t l c Hp) as Hr. pose proof (page_brs (Line t l) c Hp) as Eb.
  exists s'. cbn [passage_html] in *. destruct (references_html prefix l c) as [x c1]. cbn [fst snd] in *. split; [|exact G]. apply shown_steps. split; [apply line_piece, Hp|].
  exists (t ++ x), s', (element (u "p") (t ++ x)). split; [exact E|]. split; [|exact Eb].
  assert (R : forall r, In r [DIVIDER_RE; UNWRAPPABLE_RE; WRAPPED_RE] -> no_match (rx_re r) (t ++ x)) by (intros r Hx; eapply never_rx; [exact fresult_whole|exact Hr|exact Hx]).
  assert (wrapped (t ++ x) = element (u "p") (t ++ x)) as ->.
  { unfold wrapped, has_raw_text. rewrite !is_match_no_match by (apply R; cbn [In]; tauto). rewrite captures_no_match by (apply R; cbn [In]; tauto). cbn [orb negb]. rewrite orb_false_r.
    destruct (t ++ x) eqn:Et; [|reflexivity]. exfalso. inversion Hr as [q Hq|]. cbn in Hq. intuition discriminate. }
  rewrite element_tagged. apply p_br_line; [intros []|left; reflexivity|]. apply no_match_ch. eapply never_in; [exact fresult_ends|exact Hr|]. left. reflexivity.
Qed.

(** ** Footnotes *)
Lemma graf_note fuel nn n back i t c : (0 < fuel)%nat -> proper_passage (Footnote n back t) -> becomes c c (graf_n W T fuel (S nn) (note_text T n back i t)) (note_text T n back i t).
Proof.
  intros Hf Hp. pose proof (note_accepts T prefix_fine n back i t Hp) as H. set (x := note_text T n back i t) in *. destruct (tailed_both _ _ H) as [H1 H2].
  assert (Q : forallb (fun r => never (tailed_of fnote_a) (rx_re r)) (early_rx ++ TAG_PATTERNS) = true /\ forallb (fun r => never (tailed_of fnote_a) (rx_re r)) [FOOTNOTE_RE; NOTEREF_RE] = true).
  { pose proof fnote_quiet as F. rewrite !forallb_app in F. apply andb_prop in F as [F1 F]. apply andb_prop in F as [F2 F3]. split; [rewrite forallb_app; apply andb_true_intro; split; [exact F1|exact F3]|exact F2]. }
  destruct Q as [Q1 Q2]. assert (En : trim_end_matches 10 x = x) by (apply no_end_newline; eapply never_in; [exact fnote_ends|exact H|right; left; reflexivity]).
  apply graf_refs with (A := fnote_a); [exact Hf|exact Q1|exact H| | | | |exact En].
  - unfold needle. apply contains_more, lead_absent; auto. eapply never_ok; [exact H|exact fnote_lead].
  - apply leaves_becomes, leaves_replace. eapply never_rx; [exact Q2|exact H2|left; reflexivity].
  - eapply never_rx; [exact Q2|exact H2|right; left; reflexivity].
  - apply (glyphs_weave fnote_a fnote_tags fnote_tagged); [exact H|exact En].
Qed.
Lemma hat_attrs back s : block_attributes_parse (hat back) ElNone true (t_restricted T) s = Ret ba_default s.
Proof. destruct back, (t_restricted T); vm_compute; reflexivity. Qed.
Lemma sup_plain x : generate_tag (u "sup") (Some x) [] = u "<sup>" ++ x ++ u "</sup>".
Proof. rewrite gen_sup by (intros a []). reflexivity. Qed.
Lemma note_attrs i : ba_to_string (ba_set_id (Some (u "fn" ++ name prefix i)) (ba_set_class (Some (u "footnote")) ba_default)) = u " class=""footnote"" id=""fn" ++ name prefix i ++ u """".
Proof.
  change (ba_to_string (ba_set_id (Some (u "fn" ++ name prefix i)) (ba_set_class (Some (u "footnote")) ba_default))) with (attr_str (u "class", u "footnote") ++ attr_str (u "id", u "fn" ++ name prefix i) ++ []).
  unfold attr_str. cbn [fst snd]. rewrite !quote_inert.
  - change (u " class=""footnote"" id=""fn") with ((u " " ++ u "class" ++ u "=" ++ u """" ++ u "footnote" ++ u """") ++ (u " " ++ u "id" ++ u "=" ++ u """" ++ u "fn")). rewrite app_nil_r, <- !app_assoc. reflexivity.
  - intros c Hc. apply inert_plain. left. eapply (fn_plain T prefix_fine); [left; reflexivity|exact Hc].
  - apply class_ok.
Qed.
Lemma open_p i : u "<p class=""footnote"" id=""fn" ++ name prefix i ++ u """>" = u "<" ++ u "p" ++ (u " class=""footnote"" id=""fn" ++ name prefix i ++ u """") ++ u ">".
Proof.
  assert (u "<p class=""footnote"" id=""fn" = u "<" ++ u "p" ++ u " class=""footnote"" id=""fn") as -> by (vm_compute; reflexivity). assert (u """>" = u """" ++ u ">") as -> by (vm_compute; reflexivity). rewrite <- !app_assoc. reflexivity.
Qed.
Lemma close_p : u "</p>" = u "</" ++ u "p" ++ u ">".
Proof. vm_compute. reflexivity. Qed.
Lemma note_tagged n (back : bool) i t : u "<p class=""footnote"" id=""fn" ++ name prefix i ++ u """><sup>" ++ (if back then link_to (u "fnrev" ++ name prefix i) n else n) ++ u "</sup> " ++ t ++ u "</p>" =
  tagged (u "p") (u " class=""footnote"" id=""fn" ++ name prefix i ++ u """") (note_text T n back i t).
Proof.
  unfold note_text, tagged. generalize (if back then link_to (u "fnrev" ++ name prefix i) n else n) as y. generalize (name prefix i) as z. intros z y.
  assert (u "<p class=""footnote"" id=""fn" = [60] ++ u "p" ++ u " class=""footnote"" id=""fn") as -> by (vm_compute; reflexivity). assert (u """><sup>" = u """" ++ [62] ++ u "<sup>") as -> by (vm_compute; reflexivity).
  assert (u "</p>" = [60; 47] ++ u "p" ++ [62]) as -> by (vm_compute; reflexivity).
  generalize (u "p") (u " class=""footnote"" id=""fn") (u """") (u "<sup>") (u "</sup> "). intros a b d e f. cbn [app]. repeat (rewrite <- ?app_assoc; cbn [app]). reflexivity.
Qed.
Lemma note_space z : exists w, u " class=""footnote"" id=""fn" ++ z = 32 :: w.
Proof. assert (u " class=""footnote"" id=""fn" = [32] ++ u "class=""footnote"" id=""fn") as -> by (vm_compute; reflexivity). exists (u "class=""footnote"" id=""fn" ++ z). rewrite <- app_assoc. reflexivity. Qed.
Lemma note_block n back i t : u "<p class=""footnote"" id=""fn" ++ name prefix i ++ u """>" ++ note_text T n back i t ++ u "</p>" = tagged (u "p") (u " class=""footnote"" id=""fn" ++ name prefix i ++ u """") (note_text T n back i t).
Proof.
  unfold tagged. generalize (note_text T n back i t) as y. generalize (name prefix i) as z. intros z y.
  assert (u "<p class=""footnote"" id=""fn" = [60] ++ u "p" ++ u " class=""footnote"" id=""fn") as -> by (vm_compute; reflexivity). assert (u """>" = u """" ++ [62]) as -> by (vm_compute; reflexivity).
  assert (u "</p>" = [60; 47] ++ u "p" ++ [62]) as -> by (vm_compute; reflexivity).
  generalize (u "p") (u " class=""footnote"" id=""fn") (u """"). intros a b d. cbn [app]. repeat (rewrite <- ?app_assoc; cbn [app]). reflexivity.
Qed.
Lemma note_new fuel n back t c : (0 < fuel)%nat -> proper_passage (Footnote n back t) ->
  let i := match known n (fst c) with Some i => i | None => snd c + 1 end in let c1 := match known n (fst c) with Some _ => c | None => (fst c, snd c + 1) end in
  becomes c c1 (block_new W T (graf W T fuel) (102 :: 110 :: n) (hat back) None t)
    (mk_blk [] [] (u "<p class=""footnote"" id=""fn" ++ name prefix i ++ u """>") (u "</p>") (note_text T n back i t) false).
Proof.
  intros Hf Hp i c1. assert (Hn : footnote_number n) by apply Hp. unfold block_new.
  eapply becomes_bind with (y := ba_default). { apply leaves_becomes, leaves_pure. intros s. apply hat_attrs. }
  cbv zeta. change (seqb (102 :: 110 :: n) (u "p")) with false. cbv iota. eapply becomes_bind with (y := false). { apply leaves_becomes, leaves_ret. }
  cbv iota. eapply becomes_bind with (y := (u "p", ba_set_id (Some (u "fn" ++ name prefix i)) (ba_set_class (Some (u "footnote")) ba_default), note_text T n back i t)) (c1 := c1).
  { unfold block_footnote. destruct (fnid n Hn) as (h & E & C1). rewrite E. unfold capx. rewrite C1. cbn [of_opt]. eapply becomes_bind with (y := n). { apply leaves_becomes, leaves_ret. }
    intros s Hs. pose proof Hs as (G1 & G2 & G3 & G4 & [G5 G6]). unfold bind at 1, get. cbv beta iota. rewrite G5, known_assoc.
    assert (Es : (if negb (contains_char 94 (hat back)) then generate_tag (u "sup") (Some n) [] else generate_tag (u "sup") (Some (generate_tag (u "a") (Some n) [(u "href", u "#fnrev" ++ name prefix i)])) []) ++ u " " ++ t = note_text T n back i t).
    { assert (generate_tag (u "a") (Some n) [(u "href", u "#fnrev" ++ name prefix i)] = link_to (u "fnrev" ++ name prefix i) n) as -> by (apply (gen_link T prefix_fine (u "fnrev") i n); right; left; reflexivity). rewrite !sup_plain. unfold note_text.
      change (u "</sup> ") with (u "</sup>" ++ u " "). destruct back; [change (contains_char 94 (hat true)) with true|change (contains_char 94 (hat false)) with false]; cbn [negb]; rewrite <- !app_assoc; reflexivity. }
    unfold i, c1 in *. destruct (known n (fst c)) as [j|] eqn:Ek; cbn [option_map].
    - exists s. split; [|exact Hs]. rewrite bind_ret. change (ba_class ba_default) with (@None str). change (ba_id (ba_set_class (Some (u "footnote")) ba_default)) with (@None str). cbv beta iota zeta. exact (f_equal (fun z => Ret (u "p", _, z) s) Es).
    - exists (set_link_index (snd c + 1) s). unfold new_id, increment_link_index, put, get, bind, ret. rewrite G6. cbv beta iota. change (ba_class ba_default) with (@None str). change (ba_id (ba_set_class (Some (u "footnote")) ba_default)) with (@None str). cbv beta iota zeta.
      split; [exact (f_equal (fun z => Ret (u "p", _, z) (set_link_index (snd c + 1) s)) Es)|]. repeat split; auto. }
  cbv beta iota. unfold block_shape. change (seqb (u "p") (u "bq")) with false. change (seqb (u "p") (u "bc")) with false. change (seqb (u "p") (u "pre")) with false. change (seqb (u "p") (u "notextile")) with false. change (seqb (u "p") (u "###")) with false. cbv iota.
  eapply becomes_bind. { apply leaves_becomes, leaves_ret. } cbn [bk_eat bk_content bk_outer_opening bk_outer_closing bk_inner_opening bk_inner_closing].
  destruct fuel as [|nn]; [lia|]. eapply becomes_bind. { apply (graf_note (S nn) nn); auto. } rewrite note_attrs.
  pose proof (f_equal2 (fun z w => mk_blk [] [] z w (note_text T n back i t) false) (open_p i) close_p) as Q. rewrite Q. apply leaves_becomes, leaves_ret.
Qed.
Lemma note_step fuel n back t c s : (0 < fuel)%nat -> proper_passage (Footnote n back t) -> good c s ->
  exists s', step_as W T fuel (passage_source (Footnote n back t)) (fst (passage_html prefix (Footnote n back t) c)) s s' /\ good (snd (passage_html prefix (Footnote n back t) c)) s'.
Proof.
  intros Hf Hp Hs. assert (Hn : footnote_number n) by apply Hp. destruct (note_new fuel n back t c Hf Hp s Hs) as (s' & E & G). cbv zeta in E, G.
  pose proof (page_brs (Footnote n back t) c Hp) as Eb. pose proof (footnote_source n back t Hp) as Ha.
  set (i := match known n (fst c) with Some i => i | None => snd c + 1 end) in *. pose proof (note_accepts T prefix_fine n back i t Hp) as Hx.
  assert (Eh : fst (passage_html prefix (Footnote n back t) c) = tagged (u "p") (u " class=""footnote"" id=""fn" ++ name prefix i ++ u """") (note_text T n back i t)).
  { rewrite <- note_tagged. cbn [passage_html]. unfold i. destruct (known n (fst c)); reflexivity. }
  assert (Ec : snd (passage_html prefix (Footnote n back t) c) = match known n (fst c) with Some _ => c | None => (fst c, snd c + 1) end) by (cbn [passage_html]; destruct (known n (fst c)); reflexivity).
  exists s'. rewrite Ec. split; [|exact G].
  assert (B : forall r, In r small_re -> no_match r (passage_source (Footnote n back t))) by (intros r Hr; eapply never_in; [exact fnsrc_small|exact Ha|exact Hr]).
  assert (Esrc : passage_source (Footnote n back t) = 102 :: 110 :: n ++ hat back ++ 46 :: 32 :: t) by (cbn [passage_source]; destruct back; reflexivity).
  assert (St : stands T (passage_source (Footnote n back t))).
  { constructor.
    - apply firm_of; apply B; cbn [In small_re]; tauto.
    - intros _. apply esc_id; apply no_match_ch, B; cbn [In small_re]; tauto.
    - apply lead_absent; auto. apply B; cbn [In small_re]; tauto.
    - rewrite Esrc. eexists _, _. split; reflexivity. }
  split; [exact St|]. intros a Hax. pose proof (stands_trim T _ St) as Et. destruct (fn_captures n back t Hn) as (h & Ecap & C1 & C2 & C3 & C4 & C5).
  unfold block_step. rewrite Et, Hax, not_lite. change (is_empty (@nil N)) with true. cbv iota zeta. rewrite Esrc, Ecap. unfold cap_or, cap_opt. rewrite C1, C2, C3, C4, C5. change (is_empty (@nil N)) with true. cbv iota.
  eexists. split.
  - unfold bind at 1. unfold bind at 1. rewrite E. unfold ret at 1. cbv beta iota. cbn [bk_outer_opening bk_inner_opening bk_content bk_inner_closing bk_outer_closing bk_eat].
    match goal with |- bind (do_p_br T ?x) _ _ = _ => assert (x = tagged (u "p") (u " class=""footnote"" id=""fn" ++ name prefix i ++ u """") (note_text T n back i t)) as -> end.
    { rewrite <- note_block. cbn [app]. rewrite <- !app_assoc, app_nil_r. reflexivity. }
    unfold bind at 1. rewrite p_br_line.
    + cbn [negb andb]. rewrite <- Eh, Eb. unfold ret. reflexivity.
    + intros F. apply in_app_or in F as [F|F]; [revert F; (refine (absent_62 _ _); vm_compute; reflexivity)|]. apply in_app_or in F as [F|F]; [|destruct F as [F|[]]; discriminate].
      pose proof (name_chars T prefix_fine i 62 F) as Q. revert Q. (refine (absent_62 _ _); vm_compute; reflexivity).
    + right. apply note_space.
    + apply no_match_ch. eapply never_in; [exact fnote_ends|exact Hx|]. left. reflexivity.
  - cbn [bl_out bl_ws bl_ext bl_eat_ws]. repeat split.
Qed.

(** ** Documents *)
Lemma passages_steps fuel l : (0 < fuel)%nat -> Forall proper_passage l -> forall c s, good c s -> exists s' c', steps W T fuel (map passage_source l) (passages_html prefix l c) s s' /\ good c' s'.
Proof.
  intros Hf. induction l as [|p l IH]; intros H c s Hs; [exists s, c; split; [constructor|exact Hs]|]. inversion H as [|? ? Hp Hl]; subst.
  assert (exists s1, step_as W T fuel (passage_source p) (fst (passage_html prefix p c)) s s1 /\ good (snd (passage_html prefix p c)) s1) as (s1 & S1 & G1) by (destruct p; [apply line_step|apply note_step]; auto).
  cbn [map passages_html]. destruct (passage_html prefix p c) as [x c1]. cbn [fst snd] in *. destruct (IH Hl c1 s1 G1) as (s2 & c2 & S2 & G2). exists s2, c2. split; [econstructor; eauto|exact G2].
Qed.
Lemma footnotes_document fuel l : ready T -> (0 < fuel)%nat -> Forall proper_passage l ->
  exists s, parse W T fuel [] (sections (map passage_source l)) = Ret (sections (passages_html prefix l ([], 0))) s.
Proof.
  intros Hr Hf H. destruct l as [|p l]; [eexists; reflexivity|]. assert (G : good ([], 0) (new_state [])) by (repeat split; apply cache_ok_nil).
  destruct (passages_steps fuel (p :: l) Hf H ([], 0) _ G) as (s' & c' & C & (G1 & G2 & G3 & G4 & _)). destruct (passages_page T prefix_fine (p :: l) ltac:(discriminate) H ([], 0)) as [A B].
  assert (R : forall r, In r [TEXT_NOTELIST_RE; BR_PATTERN; BR_TAG_RE] -> no_match (rx_re r) (sections (passages_html prefix (p :: l) ([], 0)))) by (intros r Hi; eapply never_rx; [exact fpage_quiet|exact A|exact Hi]).
  eapply parse_stepped with (s1 := s'); auto; try discriminate; try exact C; [apply R; cbn [In]; tauto|apply R; cbn [In]; tauto|]. apply lead_absent; auto. eapply never_ok; [exact A|exact fpage_lead].
Qed.
End Foot.
