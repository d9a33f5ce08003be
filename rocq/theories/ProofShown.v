(** Documents of one paragraph in which only the last stage of the inline phase has something to do. *)
From Verif Require Import Str Unicode Regex RegexParse RegexSnips RegexTheory RegexAuto RegexGroups Lib ModelBase ModelHtml ModelUrl
  ModelAttrs ModelInline ModelParser SpecRegex ProofRegex SpecParse ProofParse Logic ProofWalk ProofState SpecState ProofMemory ProofCache ProofLinks ProofDoc
  SpecPlain ProofPlain SpecNewlines ProofNewlines ProofParas ProofTags ProofSections ProofBlocks ProofStateEx SpecDoc ProofDocument SpecText ProofText.
#[local] Arguments u : simpl never.

Record staged_by (T : textile) (t : str) : Prop := mk_staged {
  st_inline : forall r, In r (stage_rx (t_lite T) (t_noimage T)) -> no_match (rx_re r) t /\ (t_lite T = false -> no_match (rx_re r) (t ++ nl ++ nl));
  st_needle : contains (needle (t_uid T)) t = false;
  st_end : trim_end_matches 10 t = t }.
Section Shown.
Variables (W : world) (T : textile).
Hypothesis uid_simple : simple_uid (t_uid T).
Let uid_ok : uid_plain (t_uid T) = true := uid_simple_plain _ uid_simple.
Lemma graf_shown fuel n t g : (0 < fuel)%nat -> staged_by T t -> (forall s, glyphs T t s = Ret g s) -> trim_end_matches 10 g = g ->
  leaves T (graf_n W T fuel (S n) t) g.
Proof.
  intros Hf [H1 H4 H5] HG Hg. cbn [graf_n]. unfold graf_body.
  assert (forall r, In r [SPECIAL_COMMENT; RESTRICTED_URLREF_RE; UNRESTRICTED_URLREF_RE; QUOTED_QUOTE_RE; SLICE_RE; FOOTNOTE_RE; NOTEREF_RE] -> no_match (rx_re r) t) as L
    by (intros r Hr; apply H1, stage_in; auto).
  assert (exists t2, (t2 = t \/ (t_lite T = false /\ t2 = t ++ nl ++ nl)) /\ t2 = (if t_lite T then t else t ++ nl ++ nl)) as (t2 & Ht2 & E2) by (destruct (t_lite T); eauto).
  assert (forall r, In r (stage_rx (t_lite T) (t_noimage T)) -> no_match (rx_re r) t2) as L3.
  { intros r Hr. destruct Ht2 as [-> |[El ->]]; apply H1; auto. }
  assert (trim_end_matches 10 t2 = t) as E3 by (destruct Ht2 as [-> |[_ ->]]; rewrite ?trim_end_snoc; auto).
  eapply leaves_bind with (x := t). { apply leaves_if; intros El; [apply leaves_ret|]. unfold no_textile. eapply leaves_bind; apply leaves_replace, H1, stage_in; cbn [In]; tauto. }
  eapply leaves_bind with (x := t). { apply leaves_if; intros El; [apply leaves_ret|]. unfold code. eapply leaves_bind; [apply leaves_replace, H1, stage_in; cbn [In]; tauto|]. eapply leaves_bind; apply leaves_replace, H1, stage_in; cbn [In]; tauto. }
  eapply leaves_bind with (x := t). { apply leaves_replace, L. cbn [In]; tauto. }
  eapply leaves_bind with (x := t). { unfold get_refs. destruct (t_restricted T); apply leaves_replace, L; cbn [In]; tauto. }
  eapply leaves_bind with (x := t). { apply leaves_replace, L. cbn [In]; tauto. }
  eapply leaves_bind with (x := t). { apply links_inert; auto. apply L. cbn [In]; tauto. }
  eapply leaves_bind with (x := t). { apply leaves_if; intros El; [apply leaves_ret|]. apply leaves_replace, H1, stage_in. tauto. }
  eapply leaves_bind with (x := t2).
  { rewrite E2. destruct (t_lite T) eqn:El; [apply leaves_ret|]. unfold table. rewrite captures_no_match; [apply leaves_ret|]. apply H1; auto. apply stage_in; cbn [In]; tauto. }
  eapply leaves_bind with (x := t2). { apply leaves_if; intros El; [apply leaves_ret|]. apply leaves_replace, L3, stage_in. cbn [In]; tauto. }
  eapply leaves_bind with (x := t2). { apply leaves_if; intros El; [apply leaves_ret|]. apply leaves_replace, L3, stage_in. cbn [In]; tauto. }
  eapply leaves_bind with (x := t2). { apply leaves_pure. apply span_inert. intros r Hr. apply L3, stage_in. auto. }
  eapply leaves_bind with (x := t2). { apply leaves_replace, L3, stage_in. cbn [In]; tauto. }
  eapply leaves_bind with (x := t2). { apply leaves_replace, L3, stage_in. cbn [In]; tauto. }
  eapply leaves_bind with (x := g).
  { apply leaves_pure. intros s. pose proof (HG s) as G. unfold glyphs in *. rewrite E3. rewrite H5 in G. exact G. }
  rewrite Hg. apply leaves_ret.
Qed.
(** The document [d] is prepared as [t], which is one piece and a paragraph. *)
Record seen_as (d t : str) : Prop := mk_seen {
  se_prepare : prepare T d = t;
  se_some : is_empty (trim d) = false;
  se_firm : firm t;
  se_uid : contains (t_uid T) t = false;
  se_tag : no_match (rx_re (if t_lite T then TEXTILE_LIGHT_TAG_RE else TEXTILE_TAG_RE)) t;
  se_divider : no_match (rx_re DIVIDER_RE) t;
  se_notedef : no_match (rx_re NOTEDEF_RE) t;
  se_first : exists c r, t = c :: r /\ is_ws c = false }.
Lemma parse_seen fuel c d t g s1 o : t_block_tags T = true -> seen_as d t -> graf W T fuel t (new_state c) = Ret g s1 ->
  ps_notes s1 = [] -> ps_shelf s1 = [] -> do_p_br T (wrapped g) s1 = Ret o s1 ->
  no_match (rx_re TEXT_NOTELIST_RE) (replace_all (rx_re BR_TAG_RE) (fun _ => br_tag T) o) ->
  parse W T fuel c d =
  bind (retrieve_tags T (replace_str (replace_all (rx_re BR_TAG_RE) (fun _ => br_tag T) o) (t_uid T ++ u ":glyph:") [])) (fun x =>
    bind (retrieve_urls W T x) (fun y => ret (finish T y))) s1.
Proof.
  intros Ht [P0 P0' P1 P3 P4 P5 P6 (x & r & P7 & P8)] HG Hn Hs Ho Hl. unfold parse, parse_m.
  assert (is_empty (trim t) = false) as Et.
  { destruct (is_empty (trim t)) eqn:E; auto. apply is_empty_nil in E. unfold trim in E. apply trim_by_nil in E. rewrite P7 in E. cbn [forallb] in E. rewrite P8 in E. discriminate. }
  rewrite P0', Ht, P0.
  assert (block W T (graf W T fuel) t (new_state c) = Ret (replace_all (rx_re BR_TAG_RE) (fun _ => br_tag T) o) s1) as EB.
  { unfold block, splitM. pose proof (split_sections [t]) as Y. cbn [sections section_pieces] in Y. rewrite Y by (try discriminate; intros s [<-|[]]; auto). cbn [of_opt]. rewrite bind_ret.
    cbn [foldM]. rewrite bind_assoc. rewrite (bind_eq _ _ _ _ (anon_step W T (graf W T fuel) (mk_bl [] [] false [] [] [] None [] false) t (new_state c) eq_refl Et
      (captures_no_match _ _ P4) (is_match_no_match _ _ P5) ltac:(rewrite P7; change (u " ") with [32]; cbn [starts_with]; destruct (N.eqb_spec 32 x) as [<-|]; [discriminate|reflexivity]) P6)).
    rewrite bind_assoc. unfold bind at 1. rewrite HG. rewrite bind_assoc. unfold bind at 1. rewrite Ho. rewrite bind_ret. rewrite bind_ret.
    cbn [bl_ext bl_out bl_ws is_empty rev app List.concat]. rewrite app_nil_r. reflexivity. }
  rewrite bind_assoc. unfold bind at 1. rewrite EB.
  assert (place_note_lists T (replace_all (rx_re BR_TAG_RE) (fun _ => br_tag T) o) s1 = Ret (replace_all (rx_re BR_TAG_RE) (fun _ => br_tag T) o) s1) as EN.
  { unfold place_note_lists, modify, bind. cbn beta. rewrite Hn. cbv iota. apply no_match_replaceM. auto. }
  unfold bind at 1. rewrite EN. unfold bind at 1. unfold retrieve, bind at 1, get. rewrite Hs. destruct fuel as [|f].
  { unfold graf in HG. cbn [graf_n] in HG. discriminate. }
  cbn [retrieve_loop]. unfold retrieve_pass. cbn [fold_left]. rewrite seqb_refl. reflexivity.
Qed.
Lemma parse_shown fuel d t g o : t_block_tags T = true -> (0 < fuel)%nat -> seen_as d t -> staged_by T t ->
  (forall s, glyphs T t s = Ret g s) -> trim_end_matches 10 g = g -> (forall s, do_p_br T (wrapped g) s = Ret o s) ->
  no_match (rx_re TEXT_NOTELIST_RE) (replace_all (rx_re BR_TAG_RE) (fun _ => br_tag T) o) ->
  contains (t_uid T) (replace_all (rx_re BR_TAG_RE) (fun _ => br_tag T) o) = false ->
  exists s, parse W T fuel [] d = Ret (finish T (replace_all (rx_re BR_TAG_RE) (fun _ => br_tag T) o)) s.
Proof.
  intros Ht Hf Hp Hst HG Hg Ho Hl Hu. destruct fuel as [|n]; [lia|].
  destruct (graf_shown (S n) n t g Hf Hst HG Hg (new_state [])) as (c & Hc & E); [apply cache_ok_nil|reflexivity|].
  rewrite (parse_seen (S n) [] d t g (set_cache c (new_state [])) o); auto.
  set (x := replace_all _ _ o) in *. rewrite replace_absent; [|pose proof (uid_ne _ uid_simple); destruct (t_uid T); [congruence|discriminate]|apply contains_more; auto].
  destruct (tags_absent T uid_simple _ Hu (set_cache c (new_state [])) Hc eq_refl) as (c2 & Hc2 & E7). destruct (urls_absent W T uid_simple _ Hu (set_cache c2 (set_cache c (new_state []))) Hc2 eq_refl) as (c3 & Hc3 & E8).
  exists (set_cache c3 (set_cache c2 (set_cache c (new_state [])))). unfold bind at 1. rewrite E7. unfold bind at 1. rewrite E8. reflexivity.
Qed.
(** A paragraph of text without tags. *)
Lemma parse_text fuel d t g : t_block_tags T = true -> t_sanitize T = None -> (0 < fuel)%nat -> seen_as d t -> staged_by T t ->
  (forall s, glyphs T t s = Ret g s) -> trim_end_matches 10 g = g -> g <> [] -> ~ In 60 g -> no_match nl_space g -> has_raw_text g = true -> contains (t_uid T) g = false ->
  no_match (rx_re TEXT_NOTELIST_RE) (element (u "p") (breaks (br_tag T) g)) ->
  exists s, parse W T fuel [] d = Ret (element (u "p") (breaks (line_break T) g)) s.
Proof.
  intros Ht Hs Hf Hp Hst HG Hg Hn H60 Hnl Hraw Hu Hl.
  assert (wrapped g = element (u "p") g) as Ew. { unfold wrapped. rewrite Hraw. destruct g; [congruence|reflexivity]. }
  assert (forall s, do_p_br T (wrapped g) s = Ret (element (u "p") (breaks (br_tag T) g)) s) as Eo.
  { intros s. rewrite Ew. apply do_p_br_element; [left; reflexivity|exact H60|exact Hnl]. }
  assert (replace_all (rx_re BR_TAG_RE) (fun _ => br_tag T) (element (u "p") (breaks (br_tag T) g)) = element (u "p") (breaks (br_tag T) g)) as Eb by (apply element_br_tag; auto; left; reflexivity).
  destruct (parse_shown fuel d t g _ Ht Hf Hp Hst HG Hg Eo) as (s & E).
  - rewrite Eb. exact Hl.
  - rewrite Eb. rewrite uid_element by (auto; right; right; left; reflexivity). apply uid_breaks; auto. left. apply br_is.
  - exists s. rewrite E, Eb. f_equal. unfold finish. rewrite Hs. unfold replace_all, segs. erewrite brs_pattern; [|apply br_is|].
    2:{ pose proof (element_brs (br_tag T) (final_br T) (u "p") g [] [] (br_is T) (or_introl eq_refl) H60 (brs_nil _ _)) as Q. rewrite !app_nil_r in Q. exact Q. }
    rewrite final_break. apply trim_end_by_id. intros r d' F. unfold element in F. rewrite !app_assoc in F. change (u ">") with [62] in F. apply app_inj_tail in F. destruct F as [_ <-]. reflexivity.
Qed.
End Shown.
