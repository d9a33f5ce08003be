(** Documents of one paragraph, for families of texts given by an automaton. *)
From Verif Require Import Str Unicode Regex RegexParse RegexSnips RegexTheory RegexAuto RegexGroups Lib ModelBase ModelHtml ModelUrl
  ModelAttrs ModelInline ModelParser SpecRegex ProofRegex SpecParse ProofParse Logic ProofWalk ProofState SpecState ProofMemory ProofCache ProofLinks ProofDoc
  SpecPlain ProofPlain SpecNewlines ProofNewlines ProofParas ProofTags ProofSections ProofBlocks ProofStateEx SpecDoc ProofDocument SpecText.
#[local] Arguments u : simpl never.

(** ** The stages of the inline phase under given settings *)
Definition stage_rx (lite noimage : bool) : list rx :=
  (if lite then [] else [SPECIAL_NOTEXTILE; SPECIAL_EQ; SPECIAL_CODE; SPECIAL_AT; SPECIAL_PRE; TABLE_RE; RC_PATTERN; LIST_RE])
  ++ (if noimage then [] else [IMAGE_RE])
  ++ [SPECIAL_COMMENT; RESTRICTED_URLREF_RE; UNRESTRICTED_URLREF_RE; QUOTED_QUOTE_RE; SLICE_RE; FOOTNOTE_RE; NOTEREF_RE] ++ TAG_PATTERNS.
Record quiet (T : textile) (t : str) : Prop := mk_quiet {
  q_inline : forall r, In r (stage_rx (t_lite T) (t_noimage T)) -> no_match (rx_re r) t /\ (t_lite T = false -> no_match (rx_re r) (t ++ nl ++ nl));
  q_glyph : forall r, In r GLYPH_RX -> no_match (rx_re r) t;
  q_angle : ~ In 60 t /\ ~ In 62 t;
  q_needle : contains (needle (t_uid T)) t = false;
  q_end : trim_end_matches 10 t = t }.
Section Quiet.
Variables (W : world) (T : textile).
Hypothesis uid_ok : uid_plain (t_uid T) = true.
Lemma glyphs_quiet t : quiet T t -> forall s, glyphs T t s = Ret t s.
Proof.
  intros [H1 H2 [H3 H3'] H4 H5] s. unfold glyphs. rewrite H5. unfold splitM, bind. rewrite split_no_match by (apply H2; left; reflexivity).
  cbn [of_opt ret glyph_chunks List.concat]. rewrite chunk_inert by auto. unfold ret. rewrite app_nil_r. reflexivity.
Qed.
Lemma stage_in r lite noimage : In r [SPECIAL_COMMENT; RESTRICTED_URLREF_RE; UNRESTRICTED_URLREF_RE; QUOTED_QUOTE_RE; SLICE_RE; FOOTNOTE_RE; NOTEREF_RE] \/ In r TAG_PATTERNS \/
  (lite = false /\ In r [SPECIAL_NOTEXTILE; SPECIAL_EQ; SPECIAL_CODE; SPECIAL_AT; SPECIAL_PRE; TABLE_RE; RC_PATTERN; LIST_RE]) \/ (noimage = false /\ r = IMAGE_RE) ->
  In r (stage_rx lite noimage).
Proof.
  unfold stage_rx. intros [H|[H|[[-> H]|[-> ->]]]]; rewrite !in_app_iff; [tauto|tauto|left; exact H|right; left; left; reflexivity].
Qed.
Lemma graf_quiet fuel n t : (0 < fuel)%nat -> quiet T t -> leaves T (graf_n W T fuel (S n) t) t.
Proof.
  intros Hf Hi. pose proof Hi as [H1 H2 H3 H4 H5]. cbn [graf_n]. unfold graf_body.
  assert (forall r, In r [SPECIAL_COMMENT; RESTRICTED_URLREF_RE; UNRESTRICTED_URLREF_RE; QUOTED_QUOTE_RE; SLICE_RE; FOOTNOTE_RE; NOTEREF_RE] -> no_match (rx_re r) t) as L
    by (intros r Hr; apply H1, stage_in; auto).
  assert (exists t2, (t2 = t \/ (t_lite T = false /\ t2 = t ++ nl ++ nl)) /\ t2 = (if t_lite T then t else t ++ nl ++ nl)) as (t2 & Ht2 & E2) by (destruct (t_lite T); eauto).
  assert (forall r, In r (stage_rx (t_lite T) (t_noimage T)) -> no_match (rx_re r) t2) as L3.
  { intros r Hr. destruct Ht2 as [-> |[El ->]]; apply H1; auto. }
  assert (trim_end_matches 10 t2 = t) as E3 by (destruct Ht2 as [-> |[_ ->]]; rewrite ?trim_end_snoc; auto).
  eapply leaves_bind with (x := t). { apply leaves_if; intros El; [apply leaves_ret|]. unfold no_textile. eapply leaves_bind; apply leaves_replace, H1, stage_in; cbn [In]; tauto. }
  eapply leaves_bind with (x := t). { apply leaves_if; intros El; [apply leaves_ret|]. unfold code. eapply leaves_bind; [apply leaves_replace, H1, stage_in; cbn [In]; tauto|]. eapply leaves_bind; apply leaves_replace, H1, stage_in; cbn [In]; tauto. }
  eapply leaves_bind with (x := t). { apply leaves_replace, L. cbn [In]; tauto. }
  eapply leaves_bind with (x := t). { unfold get_refs. destruct (t_restricted T); apply leaves_replace, L; cbn [In]; tauto. }
  eapply leaves_bind with (x := t). { apply leaves_replace, L. cbn [In]; tauto. }
  eapply leaves_bind with (x := t). { apply links_inert; auto. apply L. cbn [In]; tauto. }
  eapply leaves_bind with (x := t). { apply leaves_if; intros El; [apply leaves_ret|]. apply leaves_replace, H1, stage_in. tauto. }
  eapply leaves_bind with (x := t2).
  { rewrite E2. destruct (t_lite T) eqn:El; [apply leaves_ret|]. unfold table. rewrite captures_no_match; [apply leaves_ret|]. apply H1; auto. apply stage_in; cbn [In]; tauto. }
  eapply leaves_bind with (x := t2). { apply leaves_if; intros El; [apply leaves_ret|]. apply leaves_replace, L3, stage_in. cbn [In]; tauto. }
  eapply leaves_bind with (x := t2). { apply leaves_if; intros El; [apply leaves_ret|]. apply leaves_replace, L3, stage_in. cbn [In]; tauto. }
  eapply leaves_bind with (x := t2). { apply leaves_pure. apply span_inert. intros r Hr. apply L3, stage_in. auto. }
  eapply leaves_bind with (x := t2). { apply leaves_replace, L3, stage_in. cbn [In]; tauto. }
  eapply leaves_bind with (x := t2). { apply leaves_replace, L3, stage_in. cbn [In]; tauto. }
  eapply leaves_bind with (x := t).
  { apply leaves_pure. intros s. unfold glyphs. rewrite E3. pose proof (glyphs_quiet t Hi s) as G. unfold glyphs in G. rewrite H5 in G. exact G. }
  rewrite H5. apply leaves_ret.
Qed.
End Quiet.

(** ** A document of one piece *)
Section One.
Variables (W : world) (T : textile).
Hypothesis uid_simple : simple_uid (t_uid T).
Notation br := (br_tag T).
(** The piece is a paragraph. *)
Record piece_of (t : str) : Prop := mk_piece {
  p_firm : firm t;
  p_esc : t_restricted T = true -> esc t = t;
  p_uid : contains (t_uid T) t = false;
  p_tag : no_match (rx_re (if t_lite T then TEXTILE_LIGHT_TAG_RE else TEXTILE_TAG_RE)) t;
  p_divider : no_match (rx_re DIVIDER_RE) t;
  p_notedef : no_match (rx_re NOTEDEF_RE) t;
  p_first : exists c r, t = c :: r /\ is_ws c = false }.
Lemma parse_one fuel c t g s1 o : t_block_tags T = true -> piece_of t -> graf W T fuel t (new_state c) = Ret g s1 ->
  ps_notes s1 = [] -> ps_shelf s1 = [] -> do_p_br T (wrapped g) s1 = Ret o s1 ->
  no_match (rx_re TEXT_NOTELIST_RE) (replace_all (rx_re BR_TAG_RE) (fun _ => br) o) ->
  parse W T fuel c t =
  bind (retrieve_tags T (replace_str (replace_all (rx_re BR_TAG_RE) (fun _ => br) o) (t_uid T ++ u ":glyph:") [])) (fun x =>
    bind (retrieve_urls W T x) (fun y => ret (finish T y))) s1.
Proof.
  intros Ht [P1 P2 P3 P4 P5 P6 (x & r & P7 & P8)] HG Hn Hs Ho Hl. unfold parse, parse_m.
  assert (is_empty (trim t) = false) as Et.
  { destruct (is_empty _) eqn:E; auto. apply is_empty_nil in E. unfold trim in E. apply trim_by_nil in E. rewrite P7 in E. cbn [forallb] in E. rewrite P8 in E. discriminate. }
  rewrite Et, Ht. assert (prepare T t = t) as ->.
  { unfold prepare. assert ((if t_restricted T then encode_html t false false else t) = t) as -> by (destruct (t_restricted T) eqn:Er; auto; apply P2; auto).
    pose proof (tidy_sections [t]) as Y. cbn [sections] in Y. rewrite normalize_tidy, Y by (intros s [<-|[]]; auto). apply replace_absent; auto. apply uid_ne; auto. }
  assert (block W T (graf W T fuel) t (new_state c) = Ret (replace_all (rx_re BR_TAG_RE) (fun _ => br) o) s1) as EB.
  { unfold block, splitM. pose proof (split_sections [t]) as Y. cbn [sections section_pieces] in Y. rewrite Y by (try discriminate; intros s [<-|[]]; auto). cbn [of_opt]. rewrite bind_ret.
    cbn [foldM]. rewrite bind_assoc. rewrite (bind_eq _ _ _ _ (anon_step W T (graf W T fuel) (mk_bl [] [] false [] [] [] None [] false) t (new_state c) eq_refl Et
      (captures_no_match _ _ P4) (is_match_no_match _ _ P5) ltac:(rewrite P7; change (u " ") with [32]; cbn [starts_with]; destruct (N.eqb_spec 32 x) as [<-|]; [discriminate|reflexivity]) P6)).
    rewrite bind_assoc. unfold bind at 1. rewrite HG. rewrite bind_assoc. unfold bind at 1. rewrite Ho. rewrite bind_ret. rewrite bind_ret.
    cbn [bl_ext bl_out bl_ws is_empty rev app List.concat]. rewrite app_nil_r. reflexivity. }
  rewrite bind_assoc. unfold bind at 1. rewrite EB.
  assert (place_note_lists T (replace_all (rx_re BR_TAG_RE) (fun _ => br) o) s1 = Ret (replace_all (rx_re BR_TAG_RE) (fun _ => br) o) s1) as EN.
  { unfold place_note_lists, modify, bind. cbn beta. rewrite Hn. cbv iota. apply no_match_replaceM. auto. }
  unfold bind at 1. rewrite EN. unfold bind at 1. unfold retrieve, bind at 1, get. rewrite Hs. destruct fuel as [|f].
  { unfold graf in HG. cbn [graf_n] in HG. discriminate. }
  cbn [retrieve_loop]. unfold retrieve_pass. cbn [fold_left]. rewrite seqb_refl. reflexivity.
Qed.
End One.

(** ** Families of paragraphs *)
Definition tailed_of (A : auto) : auto := mk_auto (au_trans A ++ map (fun q => (q, newline, 200%nat)) (au_final A) ++ [(200, newline, 201)]%nat)
  (au_start A) (201%nat :: au_final A).
Definition para_rx (lite : bool) : list rx :=
  [if lite then TEXTILE_LIGHT_TAG_RE else TEXTILE_TAG_RE; DIVIDER_RE; NOTEDEF_RE; UNWRAPPABLE_RE; WRAPPED_RE; PBR_BR_RE].
(** The start of a placeholder prefix. *)
Definition id_cls : cls := one_of (58 :: id_chars).
Definition uid_lead : re := lit_re (u "textileRef:") (RCls id_cls).
Lemma in_one_of c cs : In c cs -> in_cls (one_of cs) c = true.
Proof.
  intros H. unfold in_cls, one_of. cbn [c_neg c_items].
  assert (existsb (fun i => in_item i c) (map (fun c => CRange c c) cs) = true) as ->; [|reflexivity].
  apply existsb_exists. exists (CRange c c). split; [apply in_map_iff; eauto|]. cbn [in_item]. rewrite N.leb_refl. reflexivity.
Qed.
Lemma lead_absent_at c r t : In c (58 :: id_chars) -> no_match uid_lead t -> contains (u "textileRef:" ++ c :: r) t = false.
Proof. intros Hc H. exact (no_contains (u "textileRef:") id_cls c r t H (in_one_of c _ Hc)). Qed.
Lemma id_lead id : (forall c, In c id -> In c id_chars) -> exists c r, id ++ u ":" = c :: r /\ In c (58 :: id_chars).
Proof.
  intros Hid. destruct id as [|c id]; [exists 58, []|exists c, (id ++ u ":")]; (split; [reflexivity|]); [apply in_eq|apply in_cons, Hid, in_eq].
Qed.
Lemma lead_absent uid t : simple_uid uid -> no_match uid_lead t -> contains uid t = false.
Proof.
  intros (id & -> & Hid) H. destruct (id_lead id Hid) as (c & r & E & Hc). rewrite E. apply lead_absent_at; auto.
Qed.
Definition small_re : list re := [RCls (ch 60); RCls (ch 62); RCls (ch 38); RCls (ch 13); end_newline; uid_lead; start_cls space_cls; line_blank; nl_space].
(** What the result looks like: from 300. *)
Definition shown_of (A : auto) : auto := mk_auto
  (au_trans A
   ++ flat_map (fun tr => if in_cls (snd (fst tr)) 10 then [(fst (fst tr), ch 60, 320%nat)] else []) (au_trans A)
   ++ [(320, ch 98, 321); (321, ch 114, 322); (322, ch 62, 1); (322, ch 32, 323); (323, ch 47, 324); (324, ch 62, 1)]
   ++ map (fun q => (q, ch 60, 310%nat)) (au_final A)
   ++ [(300, ch 60, 301); (301, ch 112, 302); (302, ch 62, au_start A); (310, ch 47, 311); (311, ch 112, 313); (313, ch 62, 314)])%nat
  300%nat [314%nat].
(** The result of a text without marks. *)
Section Shown.
Variables (T : textile) (A : auto).
Hypothesis newlines : forall q k q', In (q, k, q') (au_trans A) -> in_cls k 10 = true -> q' = 1%nat.
Notation br := (br_tag T).
Lemma shown_br rest : Suf (shown_of A) 1 rest -> Suf (shown_of A) 320 (match br with [] => [] | _ :: w => w end ++ rest).
Proof.
  intros H. assert (forall x, In x [(320, ch 98, 321); (321, ch 114, 322); (322, ch 62, 1); (322, ch 32, 323); (323, ch 47, 324); (324, ch 62, 1)]%nat -> In x (au_trans (shown_of A))) as I
    by (intros x Hx; cbn [shown_of au_trans]; rewrite !in_app_iff; tauto).
  unfold br_tag. destruct (t_html T); [change (u "<br />") with [60; 98; 114; 32; 47; 62]|change (u "<br>") with [60; 98; 114; 62]]; cbn [app].
  all: eapply SufCons with (q' := 321%nat) (l := ch 98); [apply I; cbn; tauto|reflexivity|]; eapply SufCons with (q' := 322%nat) (l := ch 114); [apply I; cbn; tauto|reflexivity|].
  - eapply SufCons with (q' := 323%nat) (l := ch 32); [apply I; cbn; tauto|reflexivity|]; eapply SufCons with (q' := 324%nat) (l := ch 47); [apply I; cbn; tauto|reflexivity|].
    eapply SufCons with (q' := 1%nat) (l := ch 62); [apply I; cbn; tauto|reflexivity|]. exact H.
  - eapply SufCons with (q' := 1%nat) (l := ch 62); [apply I; cbn; tauto|reflexivity|]. exact H.
Qed.
Lemma shown_breaks q t : Suf A q t -> forall rest, (forall f, In f (au_final A) -> Suf (shown_of A) f rest) -> Suf (shown_of A) q (breaks br t ++ rest).
Proof.
  pose proof newlines as F. intros H. induction H as [q Hf|q k q' c t Ht Hc Hs IH]; intros rest Hr; [apply Hr; exact Hf|].
  unfold breaks. cbn [flat_map]. fold (breaks br t). destruct (N.eqb_spec c 10) as [->|Hn].
  - pose proof (F _ _ _ Ht Hc) as ->. pose proof (shown_br (breaks br t ++ rest) (IH rest Hr)) as Hb. rewrite <- app_assoc.
    destruct br as [|x w] eqn:Eb; [exfalso; pose proof (br_is T) as G; rewrite Eb in G; destruct G; discriminate|].
    assert (x = 60) as -> by (pose proof (br_is T) as G; rewrite Eb in G; destruct G as [G|G]; inversion G; reflexivity).
    cbn [app]. eapply SufCons with (q' := 320%nat) (l := ch 60); [|reflexivity|exact Hb].
    cbn [shown_of au_trans]. apply in_or_app; right; apply in_or_app; left. apply in_flat_map. eexists. split; [exact Ht|].
    cbn [fst snd]. rewrite Hc. left. reflexivity.
  - cbn [app]. eapply SufCons; [cbn [shown_of au_trans]; apply in_or_app; left; exact Ht|exact Hc|]. apply IH. exact Hr.
Qed.
Lemma shown_page t : accepts A t -> accepts (shown_of A) (element (u "p") (breaks br t)).
Proof.
  intros H. assert (forall x, In x [(300, ch 60, 301); (301, ch 112, 302); (302, ch 62, au_start A); (310, ch 47, 311); (311, ch 112, 313); (313, ch 62, 314)]%nat -> In x (au_trans (shown_of A))) as I
    by (intros x Hx; cbn [shown_of au_trans]; rewrite !in_app_iff; tauto).
  unfold accepts. change (au_start (shown_of A)) with 300%nat. unfold element.
  change (u "<" ++ u "p" ++ u ">" ++ breaks br t ++ u "</" ++ u "p" ++ u ">") with (60 :: 112 :: 62 :: breaks br t ++ [60; 47; 112; 62]).
  eapply SufCons with (q' := 301%nat) (l := ch 60); [apply I; cbn; tauto|reflexivity|].
  eapply SufCons with (q' := 302%nat) (l := ch 112); [apply I; cbn; tauto|reflexivity|].
  eapply SufCons with (q' := au_start A) (l := ch 62); [apply I; cbn; tauto|reflexivity|]. apply shown_breaks; [exact H|]. intros f Hf.
  eapply SufCons with (q' := 310%nat) (l := ch 60); [cbn [shown_of au_trans]; rewrite !in_app_iff; do 3 right; left; apply in_map_iff; eauto|reflexivity|].
  eapply SufCons with (q' := 311%nat) (l := ch 47); [apply I; cbn; tauto|reflexivity|]. eapply SufCons with (q' := 313%nat) (l := ch 112); [apply I; cbn; tauto|reflexivity|].
  eapply SufCons with (q' := 314%nat) (l := ch 62); [apply I; cbn; tauto|reflexivity|]. constructor. left. reflexivity.
Qed.
End Shown.
Definition family (lite noimage : bool) (A : auto) : bool :=
  forallb (fun r => never (if lite then A else tailed_of A) (rx_re r)) (stage_rx lite noimage)
  && forallb (fun r => never A (rx_re r)) (GLYPH_RX ++ para_rx lite) && forallb (never A) small_re
  && never (shown_of A) (rx_re TEXT_NOTELIST_RE)
  && forallb (fun tr => implb (in_cls (snd (fst tr)) 10) (Nat.eqb (snd tr) 1)) (au_trans A) && negb (mem (au_start A) (au_final A)).
Section Family.
Variables (W : world) (T : textile) (A : auto).
Hypothesis uid_simple : simple_uid (t_uid T).
Hypothesis HA : family (t_lite T) (t_noimage T) A = true.
Notation br := (br_tag T).
Let uid_ok : uid_plain (t_uid T) = true := uid_simple_plain _ uid_simple.
Let uid_new : uid_fresh (t_uid T) := uid_simple_fresh _ uid_simple.
Lemma family_parts : forallb (fun r => never (if t_lite T then A else tailed_of A) (rx_re r)) (stage_rx (t_lite T) (t_noimage T)) = true /\
  forallb (fun r => never A (rx_re r)) (GLYPH_RX ++ para_rx (t_lite T)) = true /\ forallb (never A) small_re = true /\
  never (shown_of A) (rx_re TEXT_NOTELIST_RE) = true /\
  (forall q k q', In (q, k, q') (au_trans A) -> in_cls k 10 = true -> q' = 1%nat) /\ ~ In (au_start A) (au_final A).
Proof.
  unfold family in HA. repeat (apply andb_prop in HA as [HA ?]). repeat split; auto.
  - intros q k q' Hi Hk. match goal with H : forallb (fun tr => implb _ _) _ = true |- _ => rewrite forallb_forall in H; specialize (H _ Hi); cbn [fst snd] in H; rewrite Hk in H; apply Nat.eqb_eq in H; exact H end.
  - intros F. apply mem_in in F. match goal with H : negb _ = true |- _ => rewrite F in H; discriminate end.
Qed.
Lemma fam_small t r : accepts A t -> In r small_re -> no_match r t.
Proof. intros H Hr. eapply never_in; [apply family_parts|exact H|exact Hr]. Qed.
Lemma fam_rx t r : accepts A t -> In r (GLYPH_RX ++ para_rx (t_lite T)) -> no_match (rx_re r) t.
Proof. intros H Hr. eapply never_rx; [apply family_parts|exact H|exact Hr]. Qed.
Lemma fam_tailed t : accepts A t -> accepts (tailed_of A) t /\ accepts (tailed_of A) (t ++ nl ++ nl).
Proof.
  intros H. split.
  - unfold accepts. rewrite <- (app_nil_r t). apply (tail_ok A _ _ H).
    + intros x Hx. cbn [tailed_of au_trans]. apply in_or_app. auto.
    + intros f Hf. constructor. right. exact Hf.
  - apply (tail_ok A _ _ H).
    + intros x Hx. cbn [tailed_of au_trans]. apply in_or_app. auto.
    + intros f Hf. eapply SufCons with (l := newline) (q' := 200%nat); [|reflexivity|].
      * cbn [tailed_of au_trans]. apply in_or_app. right. apply in_or_app. left. apply in_map_iff. exists f. auto.
      * eapply SufCons with (l := newline) (q' := 201%nat); [|reflexivity|constructor; left; reflexivity].
        cbn [tailed_of au_trans]. apply in_or_app. right. apply in_or_app. right. left. reflexivity.
Qed.
Lemma fam_uid t : accepts A t -> contains (t_uid T) t = false.
Proof. intros H. apply lead_absent; auto. apply fam_small; auto. cbn [In small_re]; tauto. Qed.
Lemma fam_quiet t : accepts A t -> quiet T t.
Proof.
  intros H. destruct family_parts as (F1 & _). destruct (fam_tailed t H) as [H1 H2]. constructor.
  - intros r Hr. rewrite forallb_forall in F1. specialize (F1 r Hr). cbv beta in F1. split; [|intros E; rewrite E in F1; exact (never_ok _ _ _ H2 F1)].
    destruct (t_lite T); [exact (never_ok _ _ _ H F1)|exact (never_ok _ _ _ H1 F1)].
  - intros r Hr. apply fam_rx; auto. apply in_or_app. auto.
  - split; apply no_match_ch, fam_small; auto; cbn [In small_re]; tauto.
  - unfold needle. apply contains_more, fam_uid; auto.
  - apply no_end_newline, fam_small; auto; cbn [In small_re]; tauto.
Qed.
Lemma fam_ne t : accepts A t -> t <> [].
Proof. intros H ->. destruct family_parts as (_ & _ & _ & _ & _ & F). inversion H; subst. auto. Qed.
Lemma fam_first t : accepts A t -> exists c r, t = c :: r /\ is_ws c = false.
Proof.
  intros H. pose proof (fam_ne t H) as Hn. destruct t as [|c r]; [congruence|]. exists c, r. split; auto.
  pose proof (no_start_cls space_cls c r) as E. rewrite <- E; [|apply fam_small; auto; cbn [In small_re]; tauto].
  unfold in_cls, space_cls. cbn [c_neg c_items existsb in_item has_prop]. destruct (is_ws c); reflexivity.
Qed.
Lemma firm_of t : no_match (RCls (ch 13)) t -> no_match line_blank t -> firm t.
Proof.
  intros H13 Hb0. split; [apply no_match_ch; auto|]. intros l Hl. destruct (blank_line l) eqn:E; auto. exfalso.
  destruct (lines_at l t Hl) as (a & b & -> & Ha & Hb).
  specialize (Hb0 a (l ++ b) eq_refl). unfold match_at, line_blank in Hb0. rewrite m_seq, m_assert in Hb0.
  assert (assert_holds SOL (rev a) (l ++ b) = true) as Es by (destruct Ha as [->|(a' & ->)]; [reflexivity|]; rewrite rev_app_distr; reflexivity). rewrite Es, m_seq in Hb0.
  change (l ++ b) with (l ++ [] ++ b) in Hb0. erewrite (m_star_back tab_blank _ _ [] l) in Hb0; [discriminate| | | |].
  - rewrite app_nil_r. clear - E. unfold blank_line in E. rewrite forallb_forall in *. intros c Hc. specialize (E c Hc).
    apply orb_prop in E. destruct E as [E|E]; apply N.eqb_eq in E; subst; reflexivity.
  - destruct Hb as [->|(b' & ->)]; exact I || reflexivity.
  - rewrite m_assert. cbn [app]. assert (assert_holds EOL (rev l ++ rev a) b = true) as -> by (destruct Hb as [->|(b' & ->)]; reflexivity). reflexivity.
  - intros v1 v2 x F. destruct v1; discriminate.
Qed.
Lemma fam_piece t : accepts A t -> piece_of T t.
Proof.
  intros H. assert (forall r, In r (para_rx (t_lite T)) -> no_match (rx_re r) t) as B by (intros r Hr; apply fam_rx; auto; apply in_or_app; auto).
  constructor.
  - apply firm_of; apply fam_small; auto; cbn [In small_re]; tauto.
  - intros _. apply esc_id; apply no_match_ch, fam_small; auto; cbn [In small_re]; tauto.
  - apply fam_uid; auto.
  - apply (B (if t_lite T then TEXTILE_LIGHT_TAG_RE else TEXTILE_TAG_RE)). left. reflexivity.
  - apply B. cbn [In para_rx]; tauto.
  - apply B. cbn [In para_rx]; tauto.
  - apply fam_first; auto.
Qed.
Lemma fam_raw t : accepts A t -> has_raw_text t = true.
Proof.
  intros H. assert (forall r, In r (para_rx (t_lite T)) -> no_match (rx_re r) t) as B by (intros r Hr; apply fam_rx; auto; apply in_or_app; auto).
  unfold has_raw_text. rewrite !is_match_no_match by (apply B; cbn [In para_rx]; tauto). rewrite captures_no_match by (apply B; cbn [In para_rx]; tauto). reflexivity.
Qed.
Lemma family_parse fuel t : t_block_tags T = true -> t_sanitize T = None -> (0 < fuel)%nat -> accepts A t ->
  exists s, parse W T fuel [] t = Ret (element (u "p") (breaks (line_break T) t)) s.
Proof.
  intros Ht Hs Hf H. destruct fuel as [|n]; [lia|]. destruct (graf_quiet W T uid_ok (S n) n t Hf (fam_quiet t H) (new_state [])) as (c & Hc & E); [apply cache_ok_nil|reflexivity|].
  assert (~ In 60 t) as H60 by (apply no_match_ch, fam_small; auto; cbn [In small_re]; tauto).
  assert (wrapped t = element (u "p") t) as Ew.
  { unfold wrapped. rewrite (fam_raw t H). destruct t; [destruct (fam_ne [] H eq_refl)|reflexivity]. }
  assert (forall s, do_p_br T (wrapped t) s = Ret (element (u "p") (breaks br t)) s) as Eo.
  { intros s. rewrite Ew. apply do_p_br_element; [left; reflexivity|exact H60|]. apply fam_small; auto; cbn [In small_re]; tauto. }
  assert (replace_all (rx_re BR_TAG_RE) (fun _ => br) (element (u "p") (breaks br t)) = element (u "p") (breaks br t)) as Eb by (apply element_br_tag; auto; left; reflexivity).
  assert (contains (t_uid T) (element (u "p") (breaks br t)) = false) as Eu.
  { rewrite uid_element by (auto; right; right; left; reflexivity). apply uid_breaks; auto; [left; apply br_is|]. apply fam_uid; auto. }
  rewrite (parse_one W T uid_simple (S n) [] t t (set_cache c (new_state [])) (element (u "p") (breaks br t))); auto.
  - rewrite Eb. rewrite replace_absent; [|pose proof (uid_ne _ uid_simple); destruct (t_uid T); [congruence|discriminate]|apply contains_more; auto].
    destruct (tags_absent T uid_simple _ Eu (set_cache c (new_state [])) Hc eq_refl) as (c2 & Hc2 & E7). destruct (urls_absent W T uid_simple _ Eu (set_cache c2 (set_cache c (new_state []))) Hc2 eq_refl) as (c3 & Hc3 & E8).
    exists (set_cache c3 (set_cache c2 (set_cache c (new_state [])))). unfold bind at 1. rewrite E7. unfold bind at 1. rewrite E8. unfold ret. f_equal.
    unfold finish. rewrite Hs. unfold replace_all, segs. erewrite brs_pattern; [|apply br_is|].
    2:{ pose proof (element_brs br (final_br T) (u "p") t [] [] (br_is T) (or_introl eq_refl) H60 (brs_nil _ _)) as Q. rewrite !app_nil_r in Q. exact Q. }
    rewrite final_break. apply trim_end_by_id. intros r d F. unfold element in F. rewrite !app_assoc in F. change (u ">") with [62] in F. apply app_inj_tail in F. destruct F as [_ <-]. reflexivity.
  - apply fam_piece; auto.
  - rewrite Eb. destruct family_parts as (_ & _ & _ & F & F' & _). eapply never_ok; [apply shown_page; [exact F'|exact H]|exact F].
Qed.
End Family.

(** ** Marks that are switched off *)
Lemma lite_family noimage : family true noimage lite_text = true.
Proof. destruct noimage; vm_compute; reflexivity. Qed.
Lemma picture_family lite : family lite true picture_text = true.
Proof. destruct lite; vm_compute; reflexivity. Qed.
Lemma lite_paragraphs W T fuel t : ready T -> t_lite T = true -> (0 < fuel)%nat -> accepts lite_text t ->
  exists s, parse W T fuel [] t = Ret (element (u "p") (breaks (line_break T) t)) s.
Proof. intros (H1 & H2 & H3) Hl Hf Ht. apply (family_parse W T lite_text); auto. rewrite Hl. apply lite_family. Qed.
Lemma picture_paragraphs W T fuel t : ready T -> t_noimage T = true -> (0 < fuel)%nat -> accepts picture_text t ->
  exists s, parse W T fuel [] t = Ret (element (u "p") (breaks (line_break T) t)) s.
Proof. intros (H1 & H2 & H3) Hl Hf Ht. apply (family_parse W T picture_text); auto. rewrite Hl. apply picture_family. Qed.
Definition lite_tags : list str := [u "bq"; u "bc"; u "p"].
(** The finite language of an expression. *)
Fixpoint lang (r : re) : option (list str) :=
  match r with
  | REps => Some [[]]
  | RCls (mk_cls false [CRange a b]) => if a =? b then Some [[a]] else None
  | RSeq a b => match lang a, lang b with Some x, Some y => Some (flat_map (fun v => map (fun w => v ++ w) y) x) | _, _ => None end
  | RAlt a b => match lang a, lang b with Some x, Some y => Some (x ++ y) | _, _ => None end
  | RGroup _ a => lang a
  | _ => None
  end.
Lemma lang_ok r w : word r w -> forall l, lang r = Some l -> In w l.
Proof.
  induction 1 as [|k x Hk|a b v w H1 IH1 H2 IH2|a b w H1 IH1|a b w H1 IH1|g a|g a v w H1 IH1 H2 IH2|n a w H1 IH1|n w|a|a|k|a]; intros l E; cbn [lang] in E; try discriminate.
  - inversion E. left. reflexivity.
  - destruct k as [[] [|[a b|] [|]]]; try discriminate. destruct (N.eqb_spec a b) as [->|]; [|discriminate]. inversion E. unfold in_cls in Hk. cbn in Hk.
    rewrite !orb_false_r in Hk. repeat (apply andb_prop in Hk; destruct Hk as [Hk ?]). repeat match goal with H : (_ <=? _) = true |- _ => apply N.leb_le in H end. left. f_equal. lia.
  - destruct (lang a) as [x|]; [|discriminate]. destruct (lang b) as [y|]; [|discriminate]. inversion E. apply in_flat_map. exists v. split; auto. apply in_map. auto.
  - destruct (lang a) as [x|]; [|discriminate]. destruct (lang b) as [y|]; [|discriminate]. inversion E. apply in_or_app. auto.
  - destruct (lang a) as [x|]; [|discriminate]. destruct (lang b) as [y|]; [|discriminate]. inversion E. apply in_or_app. auto.
  - auto.
Qed.
Lemma lite_signature text m : captures (rx_re TEXTILE_LIGHT_TAG_RE) text = Some m -> In (cap_or 1 m) lite_tags.
Proof.
  intros H. pose proof (captures_hit _ _ _ H) as Hh. destruct (hit_always _ _ 1 Hh eq_refl) as (t & Et). unfold cap_or, cap_opt. rewrite Et.
  destruct (hit_group _ _ _ _ Hh Et) as (b & Hb & Hw).
  assert (map lang (groups_of 1 (rx_re TEXTILE_LIGHT_TAG_RE)) = [Some lite_tags]) as E by (vm_compute; reflexivity).
  destruct (groups_of 1 (rx_re TEXTILE_LIGHT_TAG_RE)) as [|x [|]]; try discriminate. destruct Hb as [<-|[]]. apply (lang_ok _ _ Hw). inversion E. reflexivity.
Qed.
(** ** With images off nothing that only images need matters *)
Lemma images_off W T g r i sizes align fuel c t : t_noimage T = true ->
  parse (other_images W g r i) (image_settings sizes align T) fuel c t = parse W T fuel c t.
Proof.
  unfold other_images, image_settings. destruct W as [p j g' r' i'], T as [uid lp re rb ac bt li ni gs md hk rel dyn san].
  cbn [t_noimage w_parse w_join t_uid t_link_prefix t_restricted t_raw_block t_align_class t_block_tags t_lite t_get_sizes t_max_span_depth t_html t_rel t_dyn t_sanitize].
  intros ->. reflexivity.
Qed.
Lemma images_off_http W T fuel text html s : t_noimage T = true -> parse W T fuel [] text = Ret html s -> ps_http s = [].
Proof.
  intros H E. rewrite <- (images_off W T (ModelBase.w_get W) (w_read W) (w_info W) false (t_align_class T)) in E by auto. revert E. apply parse_no_request. reflexivity.
Qed.
