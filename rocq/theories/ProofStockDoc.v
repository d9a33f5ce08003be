(** Documents of paragraphs, by what the inline phase makes of each and stores. *)
From Verif Require Import Str Unicode Regex RegexParse RegexSnips RegexTheory RegexAuto RegexGroups Lib ModelBase ModelHtml ModelUrl
  ModelAttrs ModelInline ModelParser SpecRegex ProofRegex ProofCharref SpecParse ProofParse Logic ProofWalk ProofState SpecState ProofMemory ProofCache ProofLinks ProofDoc
  SpecPlain ProofPlain SpecNewlines ProofNewlines ProofParas ProofTags ProofSections ProofBlocks ProofStateEx SpecDoc ProofDocument SpecText ProofText ProofWeave ProofSpan ProofSpanRe ProofSpanText SpecSpans ProofSpanDoc ProofSpanPage
  SpecSigned ProofSigned ProofSignedDoc ProofSignedPage ProofSignedEnd ProofSignedTop ProofPages ProofStock.
#[local] Arguments u : simpl never.

Record stored := mk_stored { d_source : str; d_stage : N -> str; d_kept : N -> list entry; d_body : str -> str }.
Section Pages.
Variables (W : world) (T : textile) (A : auto).
Hypothesis uid_simple : simple_uid (t_uid T).
Hypothesis HA : page_family A = true.
Notation tok n := (fragment_token T n).
Notation br := (br_tag T).
Notation fb := (final_br T).
Definition served (urls l : list (N * str)) : Prop := forall i h, In (i, h) l -> assocN i urls = Some h /\ i <= u32_max.
Record steady (p : stored) : Prop := mk_steady {
  d_firm : firm (d_source p);
  d_free : uid_free T (d_source p);
  d_tag : no_match (rx_re (if t_lite T then TEXTILE_LIGHT_TAG_RE else TEXTILE_TAG_RE)) (d_source p);
  d_divider : no_match (rx_re DIVIDER_RE) (d_source p);
  d_notedef : no_match (rx_re NOTEDEF_RE) (d_source p);
  d_first : exists c r, d_source p = c :: r /\ is_ws c = false;
  d_runs : forall fuel n s, (1 < fuel)%nat -> @cache_ok (own T) (ps_cache s) -> ps_borrowed s = false ->
    exists c, @cache_ok (own T) c /\ graf_n W T fuel (S n) (d_source p) s = Ret (d_stage p (ps_ref_index s)) (stocks T (d_kept p (ps_ref_index s)) (set_cache c s));
  d_accepts : forall n, accepts A (d_stage p n);
  d_back : forall shelf urls n, incl (shelf_at T n (d_kept p n)) shelf -> served urls (urls_at n (d_kept p n)) -> comes T shelf urls (breaks br (d_stage p n)) (d_body p br);
  d_brs : forall a b, brs br fb a b -> brs br fb (element (u "p") (d_body p br) ++ a) (element (u "p") (d_body p fb) ++ b) }.
Fixpoint laid (n : N) (ps : list stored) : list str :=
  match ps with [] => [] | p :: rest => element (u "p") (breaks br (d_stage p n)) :: laid (n + many (d_kept p n)) rest end.
Fixpoint kept_all (n : N) (ps : list stored) : list entry :=
  match ps with [] => [] | p :: rest => d_kept p n ++ kept_all (n + many (d_kept p n)) rest end.
Lemma stored_step fuel n p out ws tag s : (1 < fuel)%nat -> steady p -> @cache_ok (own T) (ps_cache s) -> ps_borrowed s = false ->
  exists c, @cache_ok (own T) c /\ block_step W T (graf_n W T fuel (S n)) (acc out ws tag) (d_source p) s =
    Ret (acc ((ws ++ element (u "p") (breaks br (d_stage p (ps_ref_index s)))) :: out) [] (u "p")) (stocks T (d_kept p (ps_ref_index s)) (set_cache c s)).
Proof.
  intros Hf [P1 P2 P3 P4 P5 (x & r & P6 & P7) P8 P9 _ _] Hc Hn. destruct (P8 fuel n s Hf Hc Hn) as (c & Hc' & E). exists c. split; auto.
  rewrite anon_step; auto.
  - unfold bind at 1. rewrite E. unfold bind at 1. rewrite (stage_br T A HA) by auto. unfold ret. unfold acc. cbn [bl_ws bl_out]. rewrite (stage_tag T A HA) by auto. reflexivity.
  - destruct (is_empty _) eqn:Ee; auto. apply is_empty_nil in Ee. unfold trim in Ee. apply trim_by_nil in Ee. rewrite P6 in Ee. cbn [forallb] in Ee. rewrite P7 in Ee. discriminate.
  - apply captures_no_match; auto.
  - apply is_match_no_match; auto.
  - rewrite P6. change (u " ") with [32]. cbn [starts_with]. destruct (N.eqb_spec 32 x) as [<-|]; [discriminate|reflexivity].
Qed.
Lemma stored_fold fuel n : (1 < fuel)%nat -> forall ps out ws tag s, (forall p, In p ps -> steady p) -> ps <> [] -> @cache_ok (own T) (ps_cache s) -> ps_borrowed s = false ->
  exists out' c, @cache_ok (own T) c /\ foldM (block_step W T (graf_n W T fuel (S n))) (acc out ws tag) (section_pieces (map d_source ps)) s =
    Ret (acc out' [] (u "p")) (stocks T (kept_all (ps_ref_index s) ps) (set_cache c s)) /\
    List.concat (rev out') = List.concat (rev out) ++ ws ++ sections (laid (ps_ref_index s) ps).
Proof.
  intros Hf. induction ps as [|p ps IH]; intros out ws tag s Hp Hne Hc Hn; [congruence|].
  destruct (stored_step fuel n p out ws tag s Hf (Hp p (or_introl eq_refl)) Hc Hn) as (c1 & Hc1 & E1).
  destruct ps as [|p' ps].
  - eexists _, c1. split; [exact Hc1|]. cbn [map section_pieces foldM kept_all]. rewrite app_nil_r. split; [unfold bind; rewrite E1; reflexivity|].
    cbn [rev laid sections]. rewrite concat_app. cbn [List.concat]. rewrite app_nil_r. reflexivity.
  - set (k := d_kept p (ps_ref_index s)) in *. set (s1 := stocks T k (set_cache c1 s)) in *. destruct (stocks_own T k (set_cache c1 s)) as (P1 & P2 & _ & _ & P5 & _). fold s1 in P1, P2, P5.
    destruct (IH ((ws ++ element (u "p") (breaks br (d_stage p (ps_ref_index s)))) :: out) [10; 10] (u "p") s1) as (out' & c2 & Hc2 & E2 & O2).
    { intros q Hq. apply Hp. right. exact Hq. } { discriminate. } { rewrite P1. exact Hc1. } { rewrite P2. exact Hn. }
    exists out', c2. split; auto. split.
    + change (section_pieces (map d_source (p :: p' :: ps))) with (d_source p :: [10; 10] :: section_pieces (map d_source (p' :: ps))). cbn [foldM]. unfold bind at 1. rewrite E1. fold s1.
      unfold bind at 1. rewrite blank_any. cbn [acc bl_out bl_ws bl_eat_ws bl_ext bl_tag bl_atts bl_cite bl_closing bl_eat app]. unfold acc in E2 |- *. cbn [bl_out bl_ws bl_eat_ws bl_ext bl_tag bl_atts bl_cite bl_closing bl_eat app] in E2 |- *. rewrite E2. f_equal.
      change (kept_all (ps_ref_index s) (p :: p' :: ps)) with (k ++ kept_all (ps_ref_index s + many k) (p' :: ps)). rewrite P5. cbn [ps_ref_index set_cache]. rewrite stocks_app. unfold s1. f_equal. destruct (stocks_own T k s) as (_ & _ & _ & _ & _ & Q). rewrite !Q. reflexivity.
    + rewrite O2. cbn [rev]. rewrite concat_app. cbn [List.concat]. rewrite app_nil_r, <- !app_assoc. do 2 f_equal.
      change (laid (ps_ref_index s) (p :: p' :: ps)) with (element (u "p") (breaks br (d_stage p (ps_ref_index s))) :: laid (ps_ref_index s + many k) (p' :: ps)). rewrite sections_cons by discriminate.
      rewrite P5. reflexivity.
Qed.
(** No note list. *)
Lemma laid_accepts ps : ps <> [] -> (forall p, In p ps -> steady p) -> forall n, accepts (pages_of A) (sections (laid n ps)).
Proof.
  intros Hne. induction ps as [|p ps IH]; intros Hp n; [congruence|]. cbn [laid].
  assert (accepts (shown_of A) (element (u "p") (breaks br (d_stage p n)))) as Ha.
  { apply (shown_page T A); [apply (page_parts A HA)|]. apply d_accepts, Hp. left. auto. }
  destruct ps as [|p' ps].
  - cbn [laid sections]. rewrite <- (app_nil_r (element _ _)). apply (ProofParas.tail_ok (shown_of A)); [exact Ha|exact (shown_more A)|]. intros f Hf. constructor. exact Hf.
  - rewrite sections_cons by discriminate. apply (ProofParas.tail_ok (shown_of A)); [exact Ha|exact (shown_more A)|]. intros f [<-|[]].
    eapply SufCons with (q' := 315%nat) (l := newline); [cbn [pages_of au_trans]; apply in_or_app; right; left; reflexivity|reflexivity|].
    eapply SufCons with (q' := 300%nat) (l := newline); [cbn [pages_of au_trans]; apply in_or_app; right; right; left; reflexivity|reflexivity|].
    apply IH; [discriminate|]. intros q Hq. apply Hp. right. exact Hq.
Qed.
Lemma laid_comes ps shelf urls : (forall p, In p ps -> steady p) -> forall n, incl (shelf_at T n (kept_all n ps)) shelf -> served urls (urls_at n (kept_all n ps)) ->
  comes T shelf urls (sections (laid n ps)) (sections (map (fun p => element (u "p") (d_body p br)) ps)).
Proof.
  intros Hp n Hi Hu. apply comes_sections; auto. revert n Hi Hu. induction ps as [|p ps IH]; intros n Hi Hu; [constructor|]. cbn [laid map kept_all] in *. rewrite shelf_app in Hi. rewrite urls_app in Hu. constructor.
  - apply comes_element; auto. apply d_back with (n := n); [apply Hp; left; auto| |]; [intros x Hx; apply Hi, in_or_app; auto|]. intros i h Hx. apply Hu, in_or_app. auto.
  - apply IH; [intros q Hq; apply Hp; right; auto| |]; [intros x Hx; apply Hi, in_or_app; auto|]. intros i h Hx. apply Hu, in_or_app. auto.
Qed.
Lemma stored_brs ps : (forall p, In p ps -> steady p) ->
  brs br fb (sections (map (fun p => element (u "p") (d_body p br)) ps)) (sections (map (fun p => element (u "p") (d_body p fb)) ps)).
Proof.
  induction ps as [|p ps IH]; intros Hp; [constructor|]. destruct ps as [|p' ps].
  - cbn [map sections]. rewrite <- (app_nil_r (element _ (_ br))), <- (app_nil_r (element _ (_ fb))). apply d_brs; [apply Hp; left; auto|constructor].
  - cbn [map]. rewrite (sections_cons (element _ (d_body p br))), (sections_cons (element _ (d_body p fb))) by discriminate. apply d_brs; [apply Hp; left; auto|].
    apply brs_char; [discriminate|]. apply brs_char; [discriminate|]. apply IH. intros q Hq. apply Hp. right. exact Hq.
Qed.
Lemma parse_stored fuel c src ps : (2 < fuel)%nat -> @cache_ok (own T) c -> t_sanitize T = None -> t_block_tags T = true -> (forall p, In p ps -> steady p) -> ps <> [] ->
  many (kept_all 0 ps) <= u32_max ->
  prepare T src = sections (map d_source ps) -> is_empty (trim src) = false ->
  exists s, parse W T fuel c src = Ret (sections (map (fun p => element (u "p") (d_body p fb)) ps)) s.
Proof.
  intros Hf Hc Hs Ht Hp Hne Hmax Hsrc Htr. unfold parse, parse_m. rewrite Htr, Hsrc, Ht. destruct fuel as [|n]; [lia|].
  destruct (stored_fold (S n) n ltac:(lia) ps [] [] [] (new_state c) Hp Hne Hc eq_refl) as (out & c1 & Hc1 & E1 & O1).
  set (all := kept_all 0 ps) in *. change (kept_all (ps_ref_index (new_state c)) ps) with all in E1. change (ps_ref_index (new_state c)) with 0 in O1.
  assert (block W T (graf W T (S n)) (sections (map d_source ps)) (new_state c) = Ret (sections (laid 0 ps)) (stocks T all (set_cache c1 (new_state c)))) as E2.
  { unfold block. unfold splitM. rewrite split_sections.
    - cbn [of_opt]. rewrite bind_ret. unfold graf. change (mk_bl [] [] false [] [] [] None [] false) with (acc [] [] []). unfold bind. rewrite E1. unfold ret. f_equal.
      cbn [acc bl_ext bl_out is_empty]. unfold acc. cbn [bl_ext bl_out is_empty]. exact O1.
    - destruct ps; [congruence|discriminate].
    - intros x Hx. apply in_map_iff in Hx. destruct Hx as (p & <- & Hx). apply d_firm, Hp, Hx. }
  destruct (stocks_own T all (new_state c)) as (P1 & P2 & P3 & P4 & P5 & P6). rewrite P6 in E2. set (s1 := set_cache c1 (stocks T all (new_state c))) in *.
  assert (place_note_lists T (sections (laid 0 ps)) s1 = Ret (sections (laid 0 ps)) s1) as E3.
  { unfold place_note_lists, modify, bind. cbn beta. assert (ps_notes s1 = []) as -> by (unfold s1; cbn [ps_notes set_cache]; rewrite P3; reflexivity). cbv iota.
    apply no_match_replaceM. eapply never_ok; [apply laid_accepts; auto|apply (page_parts A HA)]. }
  destruct (stocks_from T all (new_state c)) as [F1 F2]; [intros k []|intros i h []|].
  assert (ps_shelf s1 = shelf_at T 0 all) as E4 by (unfold s1; cbn [ps_shelf set_cache]; rewrite F1; reflexivity).
  assert (ps_ref_cache s1 = urls_at 0 all) as E4' by (unfold s1; cbn [ps_ref_cache set_cache]; rewrite F2; reflexivity).
  assert (ps_urlrefs s1 = []) as E4'' by (unfold s1; cbn [ps_urlrefs set_cache]; rewrite P4; reflexivity).
  assert (ps_borrowed s1 = false) as E5 by (unfold s1; cbn [ps_borrowed set_cache]; rewrite P2; reflexivity).
  set (sh := shelf_at T 0 all) in *. set (ur := urls_at 0 all) in *.
  assert (tokens T sh) as Hto by (intros k Hk; apply shelf_key in Hk as (i & -> & _); eauto). pose proof (shelf_nodup T all 0 : NoDup (map fst sh)) as Hnd.
  assert (served ur ur) as Hse. { intros i h Hi. split; [apply urls_found; exact Hi|]. apply urls_key in Hi. lia. }
  pose proof (laid_comes ps sh ur Hp 0 (fun x H => H) Hse) as R. set (x0 := sections (laid 0 ps)) in *. set (x2 := sections (map (fun p => element (u "p") (d_body p br)) ps)) in *.
  destruct (comes_pass T uid_simple sh ur Hto Hnd _ _ R) as (x1 & Ep & U).
  assert (retrieve (S n) x0 s1 = Ret x1 s1) as E9.
  { unfold retrieve, bind, get. rewrite E4. assert (retrieve_pass sh x1 = x1) as Eq by (apply (ur_pass T uid_simple ur sh x1 x2); auto).
    destruct n as [|f]; [lia|]. cbn [retrieve_loop]. rewrite Ep. destruct (seqb x1 x0) eqn:Es; [reflexivity|]. rewrite Eq, seqb_refl. reflexivity. }
  destruct (ur_tags T uid_simple ur x1 x2 U s1 Hc1 E5) as (c2 & Hc2 & E7).
  destruct (ur_urls W T uid_simple ur (set_cache c2 s1) x1 x2) as (c3 & Hc3 & E8); auto.
  exists (set_cache c3 (set_cache c2 s1)).
  unfold bind at 1. unfold bind at 1. rewrite E2, E3. unfold bind at 1. rewrite E9.
  rewrite replace_absent; [|pose proof (uid_ne _ uid_simple); destruct (t_uid T); [congruence|discriminate]|apply (ur_glyph T uid_simple ur x1 x2 U)].
  unfold bind at 1. rewrite E7. unfold bind at 1. rewrite E8. unfold ret. f_equal. unfold finish. rewrite Hs. unfold replace_all, segs.
  erewrite brs_pattern; [|apply br_is|apply stored_brs; auto]. apply sections_end. intros x Hx. apply in_map_iff in Hx. destruct Hx as (p & <- & Hx).
  unfold element. exists (u "<" ++ u "p" ++ u ">" ++ d_body p fb ++ u "</" ++ u "p"), 62. rewrite <- !app_assoc. split; [reflexivity|discriminate].
Qed.
End Pages.
