(** Signatures with a language, alone or for several blocks. *)
From Verif Require Import Str Unicode Regex RegexParse RegexSnips RegexTheory RegexAuto RegexGroups Lib ModelBase ModelHtml ModelUrl
  ModelAttrs ModelInline ModelParser SpecRegex ProofRegex ProofCharref SpecParse ProofParse Logic ProofWalk ProofState SpecState ProofMemory ProofCache ProofLinks ProofDoc
  SpecPlain ProofPlain SpecNewlines ProofNewlines ProofWeave ProofListText ProofParas ProofTags ProofSections ProofBlocks SpecDoc ProofDocument SpecAtts ProofItems SpecSigned ProofSigAtts.
#[local] Arguments u : simpl never.

(** ** A language *)
Lemma lang_char (P : N -> bool) l c : forallb P lang_chars = true -> in_chars lang_chars l = true -> In c l -> P c = true.
Proof.
  intros HP Hl Hc. unfold in_chars in Hl. rewrite forallb_forall in Hl. specialize (Hl c Hc). apply existsb_exists in Hl. destruct Hl as (x & Hx & E).
  apply N.eqb_eq in E. subst. rewrite forallb_forall in HP. auto.
Qed.
Lemma lang_all (P : N -> bool) l : forallb P lang_chars = true -> in_chars lang_chars l = true -> forallb P l = true.
Proof. intros HP Hl. apply forallb_forall. intros c Hc. eapply lang_char; eauto. Qed.
Lemma lang_without l c : in_chars lang_chars l = true -> forallb (fun x => negb (x =? c)) lang_chars = true -> ~ In c l.
Proof. intros Hl H F. apply (lang_char _ _ _ H Hl) in F. rewrite N.eqb_refl in F. discriminate. Qed.
Definition SIG_LAST : str := u "qce123456p#".
(** One dot, or two. *)
Definition dots (ext : bool) : str := if ext then [46] else [].
Lemma rest_take_ext ext before cs content : exists cs',
  m tag_rest (mk_mst before (46 :: dots ext ++ 32 :: content) cs) Some = Some (mk_mst (rev content ++ 32 :: dots ext ++ 46 :: before) [] cs') /\
  cap_text 5 cs' = Some content /\ cap_text 3 cs' = Some (dots ext) /\ find_cap 4 cs' = find_cap 4 cs /\ find_cap 1 cs' = find_cap 1 cs /\ find_cap 2 cs' = find_cap 2 cs.
Proof.
  destruct ext; cbn [dots app].
  - exists ((5%nat, (content, [])) :: (3%nat, (46 :: 32 :: content, 32 :: content)) :: cs). split.
    + unfold tag_rest. rewrite m_seq, m_cls, in_one. cbn [N.eqb Pos.eqb]. rewrite m_seq, m_group. apply m_alt_l. rewrite m_cls, in_one. cbn [N.eqb Pos.eqb].
      cbn [m_before m_after m_caps]. rewrite m_seq, m_alt, m_seq, m_cls, in_one. cbn [N.eqb Pos.eqb]. rewrite m_eps.
      rewrite m_seq, m_cls, in_one. cbn [N.eqb Pos.eqb]. rewrite m_seq, m_group. rewrite <- (app_nil_r content) at 1.
      apply m_star_greedy; [apply all_any|exact I|]. cbn [m_before m_after m_caps]. rewrite m_assert. reflexivity.
    + unfold cap_text. cbn [find_cap Nat.eqb option_map]. repeat split; f_equal; [rewrite <- (app_nil_r content) at 1; apply cap_str_app|apply (cap_str_app [46] (32 :: content))].
  - eexists. split; [apply rest_take|]. unfold cap_text. cbn [find_cap Nat.eqb option_map]. repeat split; f_equal; [rewrite <- (app_nil_r content) at 1; apply cap_str_app|apply (cap_str_app [] (32 :: content))].
Qed.
(** Names are followed by attributes or a dot. *)
Definition SIG_FIRST : str := [46; 91; 123; 40; 41; 60; 62; 61; 45; 94; 126].
Lemma names_then (light : bool) tag before d rest cs k y : In tag (known_tag light) -> In d SIG_FIRST ->
  k (mk_mst (rev tag ++ before) (d :: rest) cs) = Some y ->
  m (tag_names (if light then TEXTILE_LIGHT_TAG_RE else TEXTILE_TAG_RE)) (mk_mst before (tag ++ d :: rest) cs) k = Some y.
Proof.
  intros H Hd Hk. unfold known_tag in H. cbn [In SIG_FIRST] in Hd. repeat (destruct Hd as [<-|Hd]; [|]); try destruct Hd; destruct light; cbn [In SIGNATURES] in H; repeat (destruct H as [<-|H]; [revert Hk|]); try destruct H.
  all: intros Hk; lazy; match goal with |- match ?ks with _ => _ end = ?z => replace ks with z by (symmetry; exact Hk); reflexivity | _ => exact Hk end.
Qed.
Lemma item_first x : mark x = true \/ described x = true -> (match x with PadLeft n | PadRight n => (0 < n)%nat | _ => True end) -> exists d r, item_text x = d :: r /\ In d SIG_FIRST.
Proof.
  intros Hx Hp. destruct x as [ds k|l|c i|n|n|a|v| | | | ]; try (destruct Hx; discriminate); cbn [item_text]; try (destruct n; [lia|]); try destruct a; try destruct v;
    (eexists _, _; split; [reflexivity|unfold SIG_FIRST; cbn [In]; tauto]).
Qed.
Lemma items_first restricted l rest : in_place l -> items_ok ElNone restricted l -> exists d r, items_text l ++ 46 :: rest = d :: r /\ In d SIG_FIRST.
Proof.
  intros Hp (_ & Ho & _). destruct l as [|x l]; [eexists _, _; split; [reflexivity|left; reflexivity]|].
  destruct (item_first x (place_kinds _ _ Hp (or_introl eq_refl))) as (d & r & E & Hd).
  { pose proof (Ho x (or_introl eq_refl)) as H. destruct x; auto. }
  exists d, (r ++ items_text l ++ 46 :: rest). split; [|exact Hd]. change (items_text (x :: l)) with (item_text x ++ items_text l). rewrite E, <- app_assoc. reflexivity.
Qed.
Lemma closed_dots l ext t : closed l t -> closed l (dots ext ++ 32 :: t).
Proof. intros [H|H]; [left; exact H|right]. intros F. apply in_app_or in F as [F|[F|F]]; [destruct ext; [destruct F as [F|[]]|destruct F]; discriminate|discriminate|exact (H F)]. Qed.
Lemma signed_captures restricted (light ext : bool) tag l content : In tag (known_tag light) -> items_ok ElNone restricted l -> in_place l -> (forall x, In x l -> sig_item restricted x) -> closed l content ->
  exists h, captures (rx_re (if light then TEXTILE_LIGHT_TAG_RE else TEXTILE_TAG_RE)) (tag ++ items_text l ++ 46 :: dots ext ++ 32 :: content) = Some h /\
    cap_text 1 (h_caps h) = Some tag /\ cap_text 2 (h_caps h) = Some (items_text l) /\ cap_text 3 (h_caps h) = Some (dots ext) /\ cap_text 4 (h_caps h) = None /\ cap_text 5 (h_caps h) = Some content.
Proof.
  intros H Hi Hpl Hsi Hcl. apply closed_dots with (ext := ext) in Hcl. set (tail := 46 :: dots ext ++ 32 :: content). set (text := tag ++ items_text l ++ tail).
  assert (exists b bs, rev tag ++ [] = b :: bs /\ In b SIG_LAST) as (b & bs & Eb & Hb).
  { assert (In tag SIGNATURES) as H' by (unfold known_tag in H; destruct light; auto; cbn [In SIGNATURES] in *; tauto). cbn [In SIGNATURES] in H'.
    repeat (destruct H' as [<-|H']; [eexists _, _; split; [reflexivity|vm_compute; tauto]|]). destruct H'. }
  destruct (rest_take_ext ext (rev (items_text l) ++ b :: bs) ((2%nat, (items_text l ++ tail, tail)) :: (1%nat, (text, items_text l ++ tail)) :: []) content) as (cs' & R & C5 & C3 & C4 & C1 & C2).
  fold tail in R. match type of R with _ = Some ?x => set (s := x) in * end.
  assert (match_at (rx_re (if light then TEXTILE_LIGHT_TAG_RE else TEXTILE_TAG_RE)) [] text = Some s) as E.
  { unfold match_at. assert (forall a, m (RSeq (RAssert SOT) (RSeq (RGroup 1 a) (RSeq (RGroup 2 tag_atts) tag_rest))) (mk_mst [] text []) Some =
       m a (mk_mst [] text []) (fun s' => m (RSeq (RGroup 2 tag_atts) tag_rest) (mk_mst (m_before s') (m_after s') ((1%nat, (text, m_after s')) :: m_caps s')) Some)) as P by reflexivity.
    assert (m (tag_names (if light then TEXTILE_LIGHT_TAG_RE else TEXTILE_TAG_RE)) (mk_mst [] text []) (fun s' => m (RSeq (RGroup 2 tag_atts) tag_rest) (mk_mst (m_before s') (m_after s') ((1%nat, (text, m_after s')) :: m_caps s')) Some) = Some s) as Q.
    { destruct (items_first restricted l (dots ext ++ 32 :: content) Hpl Hi) as (d & r & Ed & Hd). fold tail in Ed.
      unfold text at 1. rewrite Ed. apply names_then; auto. rewrite <- Ed. cbn [m_before m_after m_caps]. rewrite m_seq, m_group. rewrite Eb. unfold tail at 1. apply (atts_take restricted); auto.
      - assert (~ In 60 SIG_LAST) as N6 by (vm_compute; intuition discriminate). intros ->. exact (N6 Hb).
      - intros z zz Hz. cbn [m_before m_after m_caps] in Hz. unfold tag_rest in Hz. rewrite m_seq in Hz. destruct z as [zb za zc]. cbn [m_before m_after m_caps] in *. destruct za as [|zx za]; [rewrite m_cls_nil in Hz; discriminate|].
        rewrite m_cls, in_one in Hz. destruct (N.eqb_spec zx 46) as [->|]; [eexists; reflexivity|discriminate]. }
    destruct light; [rewrite light_shape|rewrite tag_shape]; rewrite P; exact Q. }
  exists (mk_hit_of text s). split.
  - unfold captures, find_first. unfold find_from. destruct text eqn:Et; rewrite E; reflexivity.
  - unfold mk_hit_of, s. cbn [h_caps m_caps]. unfold cap_text in *. rewrite C1, C2, C4. cbn [find_cap Nat.eqb option_map]. repeat split; auto; f_equal.
    + unfold text. apply cap_str_app. + apply cap_str_app.
Qed.

(** ** Its attributes *)
Lemma lang_plain l q : in_chars lang_chars l = true -> encode_html l q true = l.
Proof.
  intros Hl. unfold encode_html. assert (forall c, In c l -> encode_char q true c = [c]) as H.
  { intros c Hc. assert (forallb (fun c => match encode_char q true c with [d] => c =? d | _ => false end) lang_chars = true) as P by (destruct q; vm_compute; reflexivity).
    pose proof (lang_char _ _ _ P Hl Hc) as E. cbn beta in E. destruct (encode_char q true c) as [|d [|]]; try discriminate. apply N.eqb_eq in E. subst. reflexivity. }
  clear Hl. induction l as [|c l IH]; [reflexivity|]. cbn [flat_map]. rewrite H by (left; auto). rewrite IH by (intros; apply H; right; auto). reflexivity.
Qed.
Lemma quote_lang l : in_chars lang_chars l = true -> quoteattr l = u """" ++ l ++ u """".
Proof.
  intros Hl. unfold quoteattr. rewrite lang_plain by auto. assert (contains_char 34 l = false) as ->; [|reflexivity].
  destruct (contains_char 34 l) eqn:E; auto. exfalso. unfold contains_char in E. apply existsb_exists in E. destruct E as (x & Hx & Ex). apply N.eqb_eq in Ex. subst.
  revert Hx. apply lang_without; auto.
Qed.
Definition name_cls : cls := mk_cls false [CRange 97 122; CRange 65 90; CRange 48 57; CRange 95 95; CRange 45 45].
Lemma name_cls_is c : existsb (N.eqb c) lang_chars = true -> in_cls name_cls c = existsb (N.eqb c) name_chars.
Proof.
  intros H. apply existsb_exists in H. destruct H as (x & Hx & E). apply N.eqb_eq in E. subst x.
  assert (forallb (fun c => Bool.eqb (in_cls name_cls c) (existsb (N.eqb c) name_chars)) lang_chars = true) as P by (vm_compute; reflexivity).
  rewrite forallb_forall in P. apply eqb_prop. apply P. exact Hx.
Qed.
Lemma code_lang_re l : l <> [] -> in_chars lang_chars l = true -> is_match (rx_re CODE_LANG_RE) l = in_chars name_chars l.
Proof.
  intros Hne Hl. assert (in_chars name_chars l = forallb (in_cls name_cls) l) as ->.
  { unfold in_chars in *. rewrite forallb_forall in Hl. clear Hne. induction l as [|c l IH]; [reflexivity|]. cbn [forallb].
    rewrite name_cls_is, IH by (intros; apply Hl; cbn; auto). reflexivity. }
  assert (rx_re CODE_LANG_RE = RSeq (RAssert SOT) (RSeq (RSeq (RCls name_cls) (RStar true (RCls name_cls))) (RAssert EOT))) as -> by reflexivity.
  destruct (forallb (in_cls name_cls) l) eqn:E.
  - destruct l as [|c l]; [congruence|]. cbn [forallb] in E. apply andb_prop in E. destruct E as [Ec E].
    apply (is_match_first _ _ (mk_mst (rev l ++ [c]) [] [])). unfold match_at. rewrite m_seq, m_assert. cbn [assert_holds is_empty]. rewrite m_seq, m_seq, m_cls, Ec.
    rewrite <- (app_nil_r l) at 1. apply m_star_greedy; [exact E|exact I|]. reflexivity.
  - apply is_match_no_match. intros a b Ea. destruct (match_at _ (rev a) b) as [s|] eqn:M; auto. exfalso. apply match_at_sound in M.
    apply mat_seq in M as (s1 & M1 & M). apply mat_assert in M1 as [-> M1]. cbn [m_before m_after assert_holds] in M1.
    assert (a = []) as -> by (destruct a as [|x a]; auto; cbn [rev] in M1; destruct (rev a ++ [x]) eqn:Er; [destruct (rev a); discriminate|discriminate]). cbn [app] in Ea. subst b.
    apply mat_seq in M as (s2 & M2 & M). apply mat_assert in M as [-> M]. apply mat_seq in M2 as (s3 & M3 & M2). apply mat_cls in M3 as (x & r & E3 & Hx & ->).
    apply mat_star_cls in M2 as (w & [V1 V2] & Hw & _). cbn [m_after m_before step assert_holds] in *. apply is_empty_nil in M. rewrite M, app_nil_r in V1. subst.
    cbn [forallb] in E. rewrite Hx, Hw in E. discriminate.
Qed.

(** ** A text that does not start with a signature *)
Definition SIG_NEXT : str := u ".([{<>=)-^~".
Definition forbidden : list (str * str) := (u "f", u "n") :: map (fun w => (w, SIG_NEXT)) SIGNATURES.
Fixpoint prefixes (w : str) : list str := match w with [] => [[]] | c :: w' => [] :: map (cons c) (prefixes w') end.
Definition nodes : list str := Eval vm_compute in [] :: filter (fun w => negb (is_empty w)) (nodup (list_eq_dec N.eq_dec) (flat_map (fun d => prefixes (fst d)) forbidden)).
Definition indexed : list (nat * str) := Eval vm_compute in combine (seq 1 (List.length nodes)) nodes.
(** Characters that lead to another node, and forbidden ones. *)
Definition children (p : str) : list (N * nat) :=
  flat_map (fun d => match rev (snd d) with c :: r => if seqb (rev r) p then [(c, fst d)] else [] | [] => [] end) indexed.
Definition banned (p : str) : str := flat_map (fun d => if seqb (fst d) p then snd d else []) forbidden.
Definition node_trans (d : nat * str) : list trans :=
  flat_map (fun e => if existsb (N.eqb (fst e)) (banned (snd d)) then [] else [(fst d, ch (fst e), snd e)]) (children (snd d))
  ++ [(fst d, mk_cls true ((if seqb (snd d) (u "h") then [CRange 49 54] else []) ++ map (fun c => CRange c c) (banned (snd d) ++ map fst (children (snd d)))), 0%nat)].
Definition free : auto :=
  mk_auto ((0%nat, any_cls, 0%nat) :: flat_map node_trans indexed) 1%nat (0%nat :: map fst indexed).
Lemma free_quiet : forallb (fun r => never free (rx_re r)) [TEXTILE_TAG_RE; TEXTILE_LIGHT_TAG_RE] = true.
Proof. vm_compute. reflexivity. Qed.
Lemma free_all q w : q = 0%nat -> Suf free q w.
Proof. intros ->. induction w as [|c w IH]; [constructor; cbn; tauto|]. eapply SufCons with (l := any_cls) (q' := 0%nat); [left; reflexivity|reflexivity|exact IH]. Qed.
Lemma banned_in p cs c : In (p, cs) forbidden -> In c cs -> In c (banned p).
Proof. intros H Hc. unfold banned. apply in_flat_map. exists (p, cs). split; auto. cbn [fst snd]. rewrite seqb_refl. exact Hc. Qed.
Lemma existsb_false_in {A} (f : A -> bool) l : (forall x, In x l -> f x = false) -> existsb f l = false.
Proof. induction l as [|x l IH]; intros H; [reflexivity|]. cbn [existsb]. rewrite (H x (or_introl eq_refl)), IH; auto. intros y Hy. apply H. right. exact Hy. Qed.
Lemma in_one_ch c : in_cls (ch c) c = true.
Proof. unfold in_cls, ch. cbn [c_neg c_items existsb in_item]. rewrite N.leb_refl. reflexivity. Qed.
Lemma free_node i p w : In (i, p) indexed -> (forall c r, In c (banned p) -> w <> c :: r) ->
  (forall c j r, w = c :: r -> In (j, p ++ [c]) indexed -> Suf free j r) -> Suf free i w.
Proof.
  intros Hi Hb Hj. destruct w as [|c w]; [constructor; right; apply in_map_iff; exists (i, p); auto|].
  assert (~ In c (banned p)) as Nb by (intros F; exact (Hb c w F eq_refl)).
  destruct (List.in_dec N.eq_dec c (map fst (children p))) as [Hc|Hc].
  - apply in_map_iff in Hc. destruct Hc as ((c', j) & <- & Hc). cbn [fst] in *. unfold children in Hc. pose proof Hc as Hc0. apply in_flat_map in Hc. destruct Hc as ((j', p') & Hp & Hc). cbn [snd fst] in Hc.
    destruct (rev p') as [|d r] eqn:Er; [destruct Hc|]. destruct (seqb (rev r) p) eqn:Es; [|destruct Hc]. destruct Hc as [Hc|[]]. inversion Hc; subst. apply seqb_eq in Es.
    assert (p' = p ++ [c']) as -> by (rewrite <- (rev_involutive p'), Er; cbn [rev]; rewrite Es; reflexivity).
    eapply SufCons with (l := ch c') (q' := j); [|apply in_one_ch|apply (Hj c' j w); auto].
    right. apply in_flat_map. exists (i, p). split; auto. unfold node_trans. apply in_or_app. left. apply in_flat_map. exists (c', j). split; [exact Hc0|]. cbn [fst snd].
    destruct (existsb (N.eqb c') (banned p)) eqn:Ee; [|left; reflexivity]. apply existsb_exists in Ee. destruct Ee as (x & Hx & Ex). apply N.eqb_eq in Ex. subst. contradiction.
  - eapply SufCons with (q' := 0%nat); [|
      |apply free_all; reflexivity].
    + right. apply in_flat_map. exists (i, p). split; auto. unfold node_trans. apply in_or_app. right. left. reflexivity.
    + unfold in_cls. cbn [c_neg c_items snd]. apply negb_true_iff. rewrite existsb_app. apply orb_false_intro.
      * destruct (seqb p (u "h")) eqn:Eh; [|reflexivity]. apply seqb_eq in Eh. subst p. cbn [existsb in_item]. rewrite orb_false_r.
        destruct (N.leb_spec 49 c), (N.leb_spec c 54); auto. exfalso. apply Hc.
        assert (c = 49 \/ c = 50 \/ c = 51 \/ c = 52 \/ c = 53 \/ c = 54) as D by lia. repeat (destruct D as [->|D]; [vm_compute; tauto|]). subst. vm_compute. tauto.
      * apply existsb_false_in. intros x Hx. apply in_map_iff in Hx. destruct Hx as (d & <- & Hd). cbn [in_item]. apply in_app_or in Hd.
        destruct (N.leb_spec d c), (N.leb_spec c d); auto. assert (d = c) by lia. subst. tauto.
Qed.
(** Below a node. *)
Lemma free_below n : forall i p w, (List.length w <= n)%nat -> In (i, p) indexed -> unsigned (p ++ w) -> Suf free i w.
Proof.
  induction n as [|n IH]; intros i p w Hn Hi Hu.
  - destruct w; [|cbn in Hn; lia]. apply (free_node i p); auto; discriminate.
  - apply (free_node i p w); auto.
    + intros c r Hb ->. unfold banned in Hb. apply in_flat_map in Hb. destruct Hb as ((q, cs) & Hf & Hb). cbn [fst snd] in Hb. destruct (seqb q p) eqn:E; [|destruct Hb]. apply seqb_eq in E. subst q.
      destruct Hu as [U1 U2]. unfold forbidden in Hf. destruct Hf as [Hf|Hf].
      * inversion Hf; subst. destruct Hb as [<-|[]]. apply (U1 r). reflexivity.
      * apply in_map_iff in Hf. destruct Hf as (name & Hf & Hs). inversion Hf; subst. apply (U2 p c r); auto.
    + intros c j r -> Hj. apply (IH j (p ++ [c])); auto; [cbn in Hn; lia|]. rewrite <- app_assoc. exact Hu.
Qed.
Lemma free_accepts w : unsigned w -> accepts free w.
Proof. intros H. apply (free_below (List.length w) 1%nat [] w); auto. left. reflexivity. Qed.
Lemma unsigned_quiet light w : unsigned w -> captures (rx_re (if light : bool then TEXTILE_LIGHT_TAG_RE else TEXTILE_TAG_RE)) w = None.
Proof.
  intros H. apply captures_no_match. apply free_accepts in H. pose proof free_quiet as Q. cbn [forallb] in Q. apply andb_prop in Q. destruct Q as [Q1 Q]. apply andb_prop in Q. destruct Q as [Q2 _].
  destruct light; [exact (never_ok _ _ _ H Q2)|exact (never_ok _ _ _ H Q1)].
Qed.

(** ** Line breaks in an element with something around it *)
Definition no_pbr (w : str) : Prop := forall a b, w = a ++ 60 :: b -> exists x b', b = x :: b' /\ x <> 112 /\ x <> 104.
Definition no_pclose (w : str) : Prop := forall a b, w = a ++ 60 :: b -> exists x b', b = 47 :: x :: b' /\ x <> 112 /\ x <> 104.
Lemma pbr_miss before c rest : c <> 60 \/ (exists x r, rest = x :: r /\ x <> 112 /\ x <> 104) -> match_at (rx_re PBR_TAG_RE) before (c :: rest) = None.
Proof.
  intros H. unfold match_at. rewrite pbr_shape, m_seq, m_cls, in_one. destruct H as [H|(x & r & -> & H1 & H2)].
  - apply N.eqb_neq in H. rewrite H. reflexivity.
  - destruct (c =? 60); [|reflexivity]. rewrite m_seq, m_group. unfold pbr_names. rewrite m_alt, m_cls, in_one. apply N.eqb_neq in H1, H2. rewrite H1, m_seq, m_cls, in_one, H2. reflexivity.
Qed.
Lemma pbr_pass w before rest last : no_pbr w -> w <> [] ->
  scan (rx_re PBR_TAG_RE) before (w ++ rest) O last = map Lit w ++ scan (rx_re PBR_TAG_RE) (rev w ++ before) rest O false.
Proof.
  intros H Hn. apply scan_pass; [exact Hn|]. intros a c b E. apply pbr_miss. destruct (N.eqb_spec c 60) as [->|]; [right|auto].
  destruct (H a b E) as (x & r & -> & Hx). exists x, (r ++ rest). auto.
Qed.
Definition tagged (tag att t : str) : str := 60 :: tag ++ att ++ 62 :: t ++ 60 :: 47 :: tag ++ [62].
Lemma pbr_name_first tag : In tag PBR_NAMES -> exists x w, tag = x :: w /\ (x = 112 \/ x = 104) /\ ~ In 60 tag.
Proof.
  intros H. cbn [In PBR_NAMES] in H. repeat (destruct H as [<-|H]; [eexists _, _; split; [reflexivity|]; split; [auto|vm_compute; intuition discriminate]|]). destruct H.
Qed.
Lemma pbr_hit before tag att t post : In tag PBR_NAMES -> ~ In 62 att -> (att = [] \/ exists w, att = 32 :: w) -> no_pclose post ->
  exists s, match_at (rx_re PBR_TAG_RE) before (tagged tag att t ++ post) = Some s /\ m_after s = post /\
    cap_text 1 (m_caps s) = Some tag /\ cap_text 2 (m_caps s) = Some att /\ cap_text 3 (m_caps s) = Some t /\ cap_text 4 (m_caps s) = Some (60 :: 47 :: tag ++ [62]).
Proof.
  intros Ht Ha Hs Hp. set (close := 60 :: 47 :: tag ++ [62]). set (A4 := close ++ post). set (A2 := 62 :: t ++ A4). set (A1 := att ++ A2).
  assert (tagged tag att t ++ post = 60 :: tag ++ A1) as ->.
  { unfold tagged, A1, A2, A4, close. cbn [app]. repeat (rewrite <- ?app_assoc; cbn [app]). reflexivity. }
  exists (mk_mst (rev close ++ rev t ++ 62 :: rev att ++ rev tag ++ 60 :: before) post [(4%nat, (A4, post)); (3%nat, (t ++ A4, A4)); (2%nat, (A1, A2)); (1%nat, (tag ++ A1, A1))]).
  split.
  2:{ split; [reflexivity|]. unfold cap_text. cbn [m_caps find_cap Nat.eqb option_map]. repeat split; f_equal; apply cap_str_app. }
  unfold match_at. rewrite pbr_shape, m_seq, m_cls, in_one. cbn [N.eqb Pos.eqb]. rewrite m_seq, m_group.
  assert (forall k y, k (mk_mst (rev tag ++ 60 :: before) A1 []) = Some y -> m pbr_names (mk_mst (60 :: before) (tag ++ A1) []) k = Some y) as N.
  { intros k y Hk. clearbody A1. clear - Ht Hk. cbn [In PBR_NAMES] in Ht.
    repeat (destruct Ht as [<-|Ht]; [unfold pbr_names; exact Hk || (apply m_alt_l; exact Hk) || (rewrite m_alt_r; [exact Hk|reflexivity])|]). destruct Ht. }
  apply N. clear N. cbn [m_before m_after m_caps]. rewrite m_seq, m_group. unfold A1 at 1. apply m_star_lazy.
  - apply forallb_forall. intros c Hc. unfold in_cls. cbn [c_neg c_items existsb in_item]. rewrite orb_false_r. destruct (N.leb_spec 62 c), (N.leb_spec c 62); auto. assert (c = 62) by lia. subst. contradiction.
  - intros w1 x w2 E. cbn [m_before m_after m_caps]. rewrite m_seq, m_cls, in_one. destruct (N.eqb_spec x 62) as [->|]; [|reflexivity]. destruct Ha. rewrite E. apply in_or_app. right. left. reflexivity.
  - cbn [m_before m_after m_caps]. unfold A2 at 1. rewrite m_seq, m_cls, in_one. cbn [N.eqb Pos.eqb]. rewrite m_seq, m_group.
    rewrite <- (app_nil_r A4) at 1. apply (m_star_back any_cls _ _ A4 t _ []); [apply all_any|exact I| |].
    + cbn [m_before m_after m_caps]. rewrite app_nil_r. unfold A4 at 1, close at 1. cbn [app]. rewrite m_group. unfold pbr_close. rewrite m_seq, m_cls, in_one. cbn [N.eqb Pos.eqb]. rewrite m_seq, m_cls, in_one. cbn [N.eqb Pos.eqb].
      rewrite m_seq. rewrite <- app_assoc. cbn [m m_caps find_cap Nat.eqb]. rewrite cap_str_app, eat_lit_app. cbn [m_after app]. rewrite in_one. cbn [N.eqb Pos.eqb]. unfold step. cbn [m_before m_caps m_after].
      f_equal. unfold A4, close. cbn [app rev]. rewrite rev_app_distr. cbn [rev app]. repeat (rewrite <- app_assoc; cbn [app]). f_equal. 
    + intros v1 v2 x E. cbn [m_before m_after m_caps]. rewrite app_nil_r. destruct (pbr_name_first tag Ht) as (p & w & Et & Hpw & N60).
      assert (v2 = [] \/ (exists c r, v2 = c :: r /\ c <> 60) \/ exists r, v2 = 60 :: 47 :: r /\ exists z r', r = z :: r' /\ z <> 112 /\ z <> 104) as G.
      { destruct v2 as [|c v2]; auto. right. destruct (N.eqb_spec c 60) as [->|]; [right|left; eauto].
        assert (exists a, post = a ++ 60 :: v2) as (a & Ea).
        { unfold A4, close in E. cbn [app] in E. destruct v1 as [|y v1]; cbn [app] in E; inversion E as [[E1 E2]].
          assert (forall q l, ~ In 60 q -> q ++ post = l ++ 60 :: v2 -> exists a, post = a ++ 60 :: v2) as Q.
          { clear. induction q as [|c q IH]; intros l Hq E; [exists l; exact E|]. destruct l as [|d l]; cbn [app] in E; inversion E; subst; [destruct Hq; left; auto|].
            apply (IH l); auto. intros F. apply Hq. right. auto. }
          apply (Q (47 :: tag ++ [62]) (v1 ++ [x])).
          - intros [F|F]; [discriminate|]. apply in_app_or in F. destruct F as [F|[F|[]]]; [auto|discriminate].
          - cbn [app]. rewrite E2. reflexivity. }
        destruct (Hp a v2 Ea) as (z & b' & -> & Hz). exists (z :: b'). split; [reflexivity|]. eauto. }
      rewrite m_group. unfold pbr_close. rewrite m_seq. destruct G as [->|[(c & r & -> & Hc)|(r & -> & z & r' & -> & Hz1 & Hz2)]].
      * rewrite m_cls_nil. reflexivity.
      * rewrite m_cls, in_one. apply N.eqb_neq in Hc. rewrite Hc. reflexivity.
      * rewrite m_cls, in_one. cbn [N.eqb Pos.eqb]. rewrite m_seq, m_cls, in_one. cbn [N.eqb Pos.eqb]. rewrite m_seq. cbn [m m_caps find_cap Nat.eqb]. rewrite cap_str_app, Et. cbn [eat_lit m_after].
        destruct (N.eqb_spec p z); [subst z; destruct Hpw; congruence|]. reflexivity.
Qed.
Lemma do_p_br_wrap T pre tag att t post : In tag PBR_NAMES -> ~ In 62 att -> (att = [] \/ exists w, att = 32 :: w) -> no_pbr pre -> no_pclose post -> ~ In 60 t -> no_match nl_space t ->
  forall s, do_p_br T (pre ++ tagged tag att t ++ post) s = Ret (pre ++ tagged tag att (breaks (br_tag T) t) ++ post) s.
Proof.
  intros Ht Ha Hs Hp Hc H60 Hn s. unfold do_p_br, replace_allM.
  destruct (pbr_hit (rev pre) tag att t post Ht Ha Hs Hc) as (st & M & Ma & C1 & C2 & C3 & C4).
  assert (segs (rx_re PBR_TAG_RE) (pre ++ tagged tag att t ++ post) = map Lit pre ++ Hit (mk_hit_of (tagged tag att t ++ post) st) :: map Lit post) as E.
  { unfold segs. assert (P : forall last, scan (rx_re PBR_TAG_RE) (rev pre) (tagged tag att t ++ post) O last = Hit (mk_hit_of (tagged tag att t ++ post) st) :: map Lit post).
    { intros last. rewrite (scan_take _ (rev pre) (tagged tag att t) post st last (ltac:(discriminate)) M Ma). f_equal.
      destruct post as [|p post']; [rewrite scan_nil; reflexivity|]. rewrite <- (app_nil_r (p :: post')) at 1. rewrite pbr_pass; [rewrite scan_nil; rewrite <- (app_nil_r (map Lit (p :: post'))) at 2; f_equal| |discriminate].
      intros a b0 Eb. destruct (Hc a b0 Eb) as (x & r & -> & _). exists 47, (x :: r). repeat split; discriminate. }
    destruct pre as [|p pre']; [cbn [app map]; apply P|]. rewrite pbr_pass by (auto; discriminate). rewrite app_nil_r. rewrite P. reflexivity. }
  rewrite E.
  assert (F : forall s, f_p_br T (mk_hit_of (tagged tag att t ++ post) st) s = Ret (tagged tag att (breaks (br_tag T) t)) s).
  { intros s1. unfold f_p_br, capx, cap_opt, mk_hit_of. cbn [h_caps]. rewrite C1, C2, C3, C4. cbn [of_opt]. unfold bind, ret.
    rewrite (replace_all_no_match (rx_re PBR_BR_RE)).
    2:{ intros w v E'. unfold match_at. destruct pbr_br_shape as (x & ->). rewrite m_seq.
        destruct v as [|c v]; [reflexivity|]. rewrite m_cls, in_one. destruct (N.eqb_spec c 60) as [->|]; [|reflexivity]. destruct H60. rewrite E'. apply in_or_app. right. left. auto. }
    unfold replace_all, segs. rewrite newline_breaks by (intros w v E'; rewrite app_nil_r; auto). reflexivity. }
  unfold bind. rewrite mapM_app. unfold bind. rewrite ProofCharref.mapM_lits. cbn [mapM]. unfold bind. cbn [replace_segM]. rewrite F, ProofCharref.mapM_lits. unfold ret.
  rewrite concat_app. cbn [List.concat]. rewrite !ProofCharref.concat_singles. reflexivity.
Qed.
