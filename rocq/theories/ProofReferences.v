(** The references of footnotes in any text. *)
From Verif Require Import Str Unicode Regex RegexParse RegexSnips RegexTheory RegexAuto Lib ModelBase ModelHtml ModelInline ModelParser ProofParse ProofTags ProofSpecial ProofDoc ProofLinked ProofImaged ProofListDoc ProofFootHits SpecImages SpecPlain SpecText SpecLists SpecFootnotes SpecReferences.
#[local] Arguments u : simpl never.
Lemma in_numeral c : in_cls numeral c = numeric c.
Proof. unfold in_cls, numeral, numeric. cbn [c_neg c_items existsb in_item has_prop]. rewrite orb_false_r. destruct (rmem tab_N c); reflexivity. Qed.
Lemma in_space c : in_cls space_c c = is_ws c.
Proof. unfold in_cls, space_c. cbn [c_neg c_items existsb in_item has_prop]. rewrite orb_false_r. destruct (is_ws c); reflexivity. Qed.
Lemma in_solid c : in_cls solid_c c = negb (is_ws c).
Proof. unfold in_cls, solid_c. cbn [c_neg c_items existsb in_item has_prop]. rewrite orb_false_r. destruct (is_ws c); reflexivity. Qed.
Lemma eaten_blank r : eaten r = blank_after r.
Proof. destruct r as [|c r]; [reflexivity|]. cbn [eaten blank_after]. rewrite in_space. reflexivity. Qed.
Lemma left_blank r : left_over r = skipn (List.length (blank_after r)) r.
Proof. destruct r as [|c r]; [reflexivity|]. cbn [left_over blank_after]. rewrite in_space. destruct (is_ws c); reflexivity. Qed.
Lemma numerals_split t : forall n r, numerals t = (n, r) -> t = n ++ r /\ forallb (in_cls numeral) n = true /\ match r with c :: _ => in_cls numeral c = false | [] => True end.
Proof.
  induction t as [|c t IH]; cbn [numerals]; intros n r H; [injection H as <- <-; auto|]. destruct (numeric c) eqn:E.
  - destruct (numerals t) as [n' r'] eqn:F. injection H as <- <-. destruct (IH _ _ eq_refl) as (-> & H1 & H2). split; [reflexivity|]. split; [|exact H2]. cbn [forallb]. rewrite in_numeral, E, H1. reflexivity.
  - injection H as <- <-. split; [reflexivity|]. split; [reflexivity|]. rewrite in_numeral. exact E.
Qed.
Lemma closes_is n b t k plain r : bracket_closes n b t = Some (k, plain, r) -> k = n /\ plain = b /\ t = 93 :: r.
Proof. unfold bracket_closes. destruct t as [|c t]; [discriminate|]. destruct (N.eqb_spec c 93) as [->|]; [|discriminate]. intros H. injection H as <- <- <-. auto. Qed.
Lemma reference_is t n plain r : reference_at t = Some (n, plain, r) -> t = 91 :: n ++ bang plain ++ 93 :: r /\ n <> [] /\ forallb (in_cls numeral) n = true.
Proof.
  unfold reference_at. destruct t as [|c t]; [discriminate|]. destruct (numerals t) as [k z] eqn:E. destruct (numerals_split _ _ _ E) as (-> & H1 & _).
  destruct (N.eqb_spec c 91) as [->|]; [|discriminate]. destruct k as [|k0 k]; [discriminate|]. cbn [andb negb is_empty]. destruct z as [|x z]; [discriminate|]. destruct (N.eqb_spec x 33) as [->|]; intros H; apply closes_is in H as (-> & -> & Ez).
  - subst z. repeat split; [discriminate|exact H1].
  - rewrite Ez. repeat split; [discriminate|exact H1].
Qed.
Lemma hit_at b bs n plain rest : in_cls solid_c b = true -> n <> [] -> forallb (in_cls numeral) n = true ->
  exists s, match_at (rx_re FOOTNOTE_RE) (b :: bs) (91 :: n ++ bang plain ++ 93 :: rest) = Some s /\ m_after s = left_over rest /\
    cap_text 1 (m_caps s) = Some n /\ cap_text 2 (m_caps s) = Some (bang plain) /\ cap_text 3 (m_caps s) = Some (eaten rest).
Proof.
  intros Hb Hn Hnum. destruct numeral_stops as (S1 & S2 & _). destruct n as [|d n]; [congruence|]. cbn [forallb] in Hnum. apply andb_prop in Hnum as [Hd0 Hnum].
  set (A1 := 93 :: rest). set (A2 := bang plain ++ A1). set (A3 := (d :: n) ++ A2).
  exists (mk_mst (rev (eaten rest) ++ 93 :: rev (bang plain) ++ rev n ++ d :: 91 :: b :: bs) (left_over rest) [(3%nat, (rest, left_over rest)); (2%nat, (A2, A1)); (1%nat, (A3, A2))]).
  split; [|split; [reflexivity|]].
  - unfold match_at. rewrite foot_shape, m_seq, m_back, Hb, m_seq, m_cls, in_one. cbn [N.eqb Pos.eqb]. rewrite m_seq, m_group, m_seq. unfold A3. cbn [app]. rewrite m_cls, Hd0.
    apply m_star_greedy; [exact Hnum|unfold A2; destruct plain; [exact S1|exact S2]|]. cbn [m_before m_after m_caps]. rewrite m_seq, m_group. unfold A2 at 1.
    assert (K : forall cs B2, m (RSeq (RCls (one 93)) (RGroup 3 (optional space_c))) (mk_mst B2 A1 cs) Some = Some (mk_mst (rev (eaten rest) ++ 93 :: B2) (left_over rest) ((3%nat, (rest, left_over rest)) :: cs))).
    { intros cs B2. unfold A1. rewrite m_seq, m_cls, in_one. cbn [N.eqb Pos.eqb]. rewrite m_group. destruct rest as [|x r]; [rewrite optional_skip by exact I; reflexivity|].
      cbn [eaten left_over]. destruct (in_cls space_c x) eqn:Ex; [apply optional_take; [exact Ex|reflexivity]|]. rewrite optional_skip by exact Ex. reflexivity. }
    destruct plain; cbn [bang app rev].
    + apply optional_take; [rewrite in_one; reflexivity|]. cbn [m_before m_after m_caps]. rewrite K. reflexivity.
    + rewrite optional_skip by (unfold A1; rewrite in_one; reflexivity). cbn [m_before m_after m_caps]. rewrite K. reflexivity.
  - unfold cap_text. cbn [m_caps find_cap Nat.eqb option_map]. repeat split; f_equal.
    + unfold A3. apply cap_str_app. + unfold A2. apply cap_str_app. + rewrite (eaten_left rest) at 1. apply cap_str_app.
Qed.
(** *** Elsewhere there is none *)
Lemma closes_none before rest cs n b k : bracket_closes n b rest = None -> m (RSeq (RCls (one 93)) (RGroup 3 (optional space_c))) (mk_mst before rest cs) k = None.
Proof. unfold bracket_closes. rewrite m_seq. destruct rest as [|c r]; [rewrite m_cls_nil; reflexivity|]. rewrite m_cls, in_one. destruct (N.eqb c 93); [discriminate|reflexivity]. Qed.
Lemma miss_at b bs t : reference_at t = None -> match_at (rx_re FOOTNOTE_RE) (b :: bs) t = None.
Proof.
  intros H. unfold match_at. rewrite foot_shape, m_seq, m_back. destruct (in_cls solid_c b); [|reflexivity]. rewrite m_seq. destruct t as [|c t]; [rewrite m_cls_nil; reflexivity|]. rewrite m_cls, in_one. unfold reference_at in H.
  destruct (N.eqb_spec c 91) as [->|]; [|reflexivity]. destruct (numerals t) as [n r] eqn:E. destruct (numerals_split _ _ _ E) as (-> & Hn & Hr). destruct numeral_stops as (S1 & S2 & _). rewrite m_seq, m_group, m_seq.
  destruct n as [|d n]; [cbn [app]; destruct r as [|x r]; [rewrite m_cls_nil; reflexivity|rewrite m_cls, Hr; reflexivity]|]. cbn [andb negb is_empty] in H. cbn [forallb] in Hn. apply andb_prop in Hn as [Hd Hn]. cbn [app]. rewrite m_cls, Hd.
  apply m_star_none; [exact Hr|]. intros w1 w2 Ew. cbn [m_before m_after m_caps]. rewrite m_seq, m_group.
  assert (G : forall cs, m (optional (one 33)) (mk_mst (rev w1 ++ d :: 91 :: b :: bs) (w2 ++ r) cs) (fun s' => m (RSeq (RCls (one 93)) (RGroup 3 (optional space_c))) (mk_mst (m_before s') (m_after s') ((2%nat, (w2 ++ r, m_after s')) :: m_caps s')) Some) = None); [|apply G].
  intros cs. destruct w2 as [|x w2].
  - cbn [app]. destruct r as [|x r]; [rewrite optional_skip by exact I; cbn [m_before m_after m_caps]; apply (closes_none _ _ _ [] true); reflexivity|]. destruct (N.eqb_spec x 33) as [->|Hx].
    + unfold optional. rewrite m_alt, m_cls, in_one. cbn [N.eqb Pos.eqb m_before m_after m_caps]. rewrite (closes_none _ _ _ (d :: n) true) by exact H. rewrite m_eps. cbn [m_before m_after m_caps]. apply (closes_none _ _ _ [] true). reflexivity.
    + rewrite optional_skip by (rewrite in_one; apply N.eqb_neq; exact Hx). cbn [m_before m_after m_caps]. apply (closes_none _ _ _ (d :: n) false). exact H.
  - cbn [app]. assert (in_cls numeral x = true) as Hx by (subst n; rewrite forallb_app in Hn; apply andb_prop in Hn as [_ Hn]; cbn [forallb] in Hn; apply andb_prop in Hn; apply Hn).
    assert (x <> 33) by (intros ->; congruence). assert (x <> 93) by (intros ->; congruence). rewrite optional_skip by (rewrite in_one; apply N.eqb_neq; assumption). cbn [m_before m_after m_caps]. apply (closes_none _ _ _ [] true). cbn [bracket_closes]. apply N.eqb_neq in H1. rewrite H1. reflexivity.
Qed.
Definition solid_before (before : str) : bool := match before with b :: _ => negb (is_ws b) | [] => false end.
Lemma not_solid before t : solid_before before = false -> match_at (rx_re FOOTNOTE_RE) before t = None.
Proof. intros H. unfold match_at. rewrite foot_shape, m_seq. destruct before as [|b bs]; [apply m_back_nil|]. rewrite m_back, in_solid. cbn [solid_before] in H. rewrite H. reflexivity. Qed.

(** *** The replacement *)
Section Replaced.
Variable T : textile.
Notation prefix := (t_link_prefix T).
Hypothesis prefix_fine : prefix_ok prefix.
Lemma with_same c s : at_table T c s -> with_table prefix c s = s.
Proof. intros [F L]. unfold with_table. rewrite <- F, <- L. destruct s; reflexivity. Qed.
Lemma with_twice c c' s : with_table prefix c' (with_table prefix c s) = with_table prefix c' s.
Proof. destruct s; reflexivity. Qed.
Lemma with_at c s : at_table T c (with_table prefix c s).
Proof. split; destruct s; reflexivity. Qed.
Lemma one_shown h n plain sp c s : cap_text 1 (h_caps h) = Some n -> cap_text 2 (h_caps h) = Some (bang plain) -> cap_text 3 (h_caps h) = Some sp -> at_table T c s ->
  f_footnote_id T h s = Ret (fst (reference_html prefix (n, plain, sp) c)) (with_table prefix (snd (reference_html prefix (n, plain, sp) c)) s).
Proof.
  intros C1 C2 C3 A. pose proof A as [F L]. unfold f_footnote_id, capx, cap_or, cap_opt. rewrite C1, C2, C3. cbn [of_opt]. rewrite bind_ret. unfold bind at 1, get. cbv beta iota. unfold has_key. rewrite F, known_assoc.
  assert (Em : forall i, generate_tag (u "a") (Some n) [(u "href", u "#fn" ++ name prefix i)] = link_to (u "fn" ++ name prefix i) n) by (intros i; apply (gen_link T prefix_fine (u "fn") i n); left; reflexivity).
  unfold reference_html. destruct (known n (fst c)) as [i|] eqn:Ek; cbn [option_map].
  - cbn [snd]. rewrite with_same by exact A. rewrite bind_ret. unfold bind at 1. cbv beta iota. rewrite F, known_assoc, Ek. cbn [option_map of_opt]. rewrite bind_ret. cbv zeta. rewrite bind_ret. unfold ret. cbn [fst].
    f_equal. rewrite Em. destruct plain; [change (seqb (bang true) (u "!")) with true|change (seqb (bang false) (u "!")) with false]; cbv iota; rewrite sup_known; rewrite <- !app_assoc; reflexivity.
  - unfold new_id, increment_link_index, modify, put, get, bind, ret. cbv beta iota. rewrite L. cbn [ps_footnotes set_link_index set_footnotes]. rewrite F.
    rewrite insert_new by (rewrite known_assoc, Ek; reflexivity). rewrite assoc_new by (rewrite known_assoc, Ek; reflexivity). cbn [of_opt]. unfold ret. cbv beta iota. cbn [fst snd].
    match goal with |- Ret ?x ?a = Ret ?y ?b => assert (x = y) as ->; [|assert (a = b) as ->; [|reflexivity]] end.
    + fold (name prefix (snd c + 1)). rewrite Em. destruct plain; [change (seqb (bang true) (u "!")) with true|change (seqb (bang false) (u "!")) with false]; cbv iota; rewrite (sup_new T prefix_fine); rewrite <- !app_assoc; reflexivity.
    + unfold with_table. cbn [fst snd]. rewrite map_app. cbn [map fst snd]. unfold name. destruct s; reflexivity.
Qed.
Lemma tokens_replaced n : forall t before last c s, (List.length t <= n)%nat -> at_table T c s ->
  outcome_is (mapM (replace_segM (f_footnote_id T)) (scan (rx_re FOOTNOTE_RE) before t O last) s)
    (fst (tokens_html prefix (tokens_of n (solid_before before) t) c)) (with_table prefix (snd (tokens_html prefix (tokens_of n (solid_before before) t) c)) s).
Proof.
  induction n as [|n IH]; intros t before last c s Hn A.
  { destruct t; [|cbn in Hn; lia]. rewrite foot_end. exists []. cbn [tokens_of tokens_html fst snd]. rewrite with_same by exact A. split; reflexivity. }
  destruct t as [|d t].
  { rewrite foot_end. exists []. cbn [tokens_of tokens_html fst snd]. rewrite with_same by exact A. split; reflexivity. }
  cbn [tokens_of]. assert (Lit1 : match_at (rx_re FOOTNOTE_RE) before (d :: t) = None -> outcome_is (mapM (replace_segM (f_footnote_id T)) (scan (rx_re FOOTNOTE_RE) before (d :: t) 0 last) s)
    (fst (tokens_html prefix (Char d :: tokens_of n (negb (is_ws d)) t) c)) (with_table prefix (snd (tokens_html prefix (Char d :: tokens_of n (negb (is_ws d)) t) c)) s)).
  { intros M. rewrite scan_cons, M. pose proof (lits_then (f_footnote_id T) [d] (scan (rx_re FOOTNOTE_RE) (d :: before) t 0 false) s) as L. cbn [map app] in L. cbn [tokens_html].
    specialize (IH t (d :: before) false c s ltac:(cbn in Hn; lia) A). cbn [solid_before] in IH. destruct (tokens_html prefix (tokens_of n (negb (is_ws d)) t) c) as [y c2]. cbn [fst snd] in *. apply L. exact IH. }
  destruct (if solid_before before then reference_at (d :: t) else None) as [[[k plain] r]|] eqn:E.
  - clear Lit1. destruct (solid_before before) eqn:Hs; [|discriminate]. destruct before as [|b bs]; [discriminate|]. cbn [solid_before] in Hs. destruct (reference_is _ _ _ _ E) as (Et & Hk & Hnum).
    destruct (hit_at b bs k plain r) as (s0 & M & Ma & C1 & C2 & C3); [rewrite in_solid; exact Hs|exact Hk|exact Hnum|]. rewrite <- Et in M.
    assert (Es : d :: t = (91 :: k ++ bang plain ++ 93 :: eaten r) ++ left_over r) by (rewrite Et; rewrite (eaten_left r) at 1; cbn [app]; rewrite <- !app_assoc; reflexivity).
    assert (Ms : m_after s0 = left_over r) by exact Ma.
    rewrite Es in M |- *. rewrite (scan_take _ _ (91 :: k ++ bang plain ++ 93 :: eaten r) (left_over r) s0) by (auto; discriminate).
    cbn [mapM replace_segM]. unfold bind at 1. rewrite (one_shown _ k plain (eaten r) c s) by (auto; rewrite <- Es; auto).
    rewrite eaten_blank, left_blank in *. cbn [tokens_html]. destruct (reference_html prefix (k, plain, blank_after r) c) as [x c1] eqn:Er. cbn [fst snd].
    assert (Hl : (List.length (skipn (List.length (blank_after r)) r) <= n)%nat). { apply (f_equal (@List.length N)) in Et. cbn [List.length] in Et. rewrite !app_length in Et. cbn [List.length] in Et. rewrite skipn_length. cbn in Hn. lia. }
    specialize (IH (skipn (List.length (blank_after r)) r) (rev (91 :: k ++ bang plain ++ 93 :: blank_after r) ++ b :: bs) true c1 (with_table prefix c1 s) Hl (with_at c1 s)).
    assert (Hb : solid_before (rev (91 :: k ++ bang plain ++ 93 :: blank_after r) ++ b :: bs) = is_empty (blank_after r)).
    { destruct r as [|z r]; [|cbn [blank_after]; destruct (is_ws z) eqn:Ez].
      - cbn [blank_after]. assert (91 :: k ++ bang plain ++ [93] = (91 :: k ++ bang plain) ++ [93]) as -> by (cbn [app]; rewrite <- app_assoc; reflexivity). rewrite rev_app_distr. reflexivity.
      - assert (91 :: k ++ bang plain ++ [93; z] = (91 :: k ++ bang plain ++ [93]) ++ [z]) as -> by (cbn [app]; rewrite <- !app_assoc; reflexivity). rewrite rev_app_distr. cbn [rev app solid_before is_empty]. rewrite Ez. reflexivity.
      - assert (91 :: k ++ bang plain ++ [93] = (91 :: k ++ bang plain) ++ [93]) as -> by (cbn [app]; rewrite <- app_assoc; reflexivity). rewrite rev_app_distr. reflexivity. }
    rewrite Hb in IH. destruct (tokens_html prefix (tokens_of n (is_empty (blank_after r)) (skipn (List.length (blank_after r)) r)) c1) as [y c2]. cbn [fst snd] in *. rewrite with_twice in IH. destruct IH as (l & El & <-).
    unfold bind. rewrite El. eexists. split; reflexivity.
  - apply Lit1. destruct (solid_before before) eqn:Hs; [|apply not_solid; exact Hs]. destruct before as [|b bs]; [discriminate|]. apply miss_at. exact E.
Qed.
Lemma references_exact t c s : at_table T c s ->
  footnote_ref T t s = Ret (fst (tokens_html prefix (tokens t) c)) (with_table prefix (snd (tokens_html prefix (tokens t) c)) s).
Proof.
  intros A. unfold footnote_ref, replace_allM, segs. destruct (tokens_replaced (List.length t) t [] false c s (le_n _) A) as (x & E & Ex). unfold bind. rewrite E. unfold ret, tokens. cbn [solid_before] in Ex |- *. rewrite Ex. reflexivity.
Qed.
End Replaced.
(** The tokens are those of the text. *)
Lemma tokens_source n : forall solid t, (List.length t <= n)%nat -> flat_map token_source (tokens_of n solid t) = t.
Proof.
  induction n as [|n IH]; intros solid t Hn; [destruct t; [reflexivity|cbn in Hn; lia]|]. destruct t as [|d t]; [reflexivity|]. cbn [tokens_of].
  destruct (if solid then reference_at (d :: t) else None) as [[[k plain] r]|] eqn:E; cbn [flat_map token_source].
  - destruct solid; [|discriminate]. destruct (reference_is _ _ _ _ E) as (Et & _). rewrite IH.
    + rewrite Et. unfold reference_source. change (u "[") with [91]. change (u "!") with [33]. change (u "]") with [93]. fold (bang plain). cbn [app]. f_equal. rewrite <- !app_assoc. do 2 f_equal. cbn [app]. f_equal.
      destruct r as [|z r]; [reflexivity|]. cbn [blank_after]. destruct (is_ws z); reflexivity.
    + apply (f_equal (@List.length N)) in Et. cbn [List.length] in Et. rewrite !app_length in Et. cbn [List.length] in Et. rewrite skipn_length. cbn in Hn. lia.
  - cbn [app]. f_equal. apply IH. cbn in Hn. lia.
Qed.
Lemma references_step T t c s : prefix_ok (t_link_prefix T) ->
  footnote_ref T t (with_table (t_link_prefix T) c s) = Ret (fst (tokens_html (t_link_prefix T) (tokens t) c)) (with_table (t_link_prefix T) (snd (tokens_html (t_link_prefix T) (tokens t) c)) s).
Proof. intros P. rewrite (references_exact T P t c _ (with_at T c s)), with_twice. reflexivity. Qed.
