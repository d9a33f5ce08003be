(** Documents of pieces that are no marked blocks, each with its own result. *)
From Verif Require Import Str Unicode Regex RegexParse RegexSnips RegexTheory RegexAuto RegexGroups Lib ModelBase ModelHtml ModelUrl
  ModelAttrs ModelInline ModelParser SpecRegex ProofRegex SpecParse ProofParse Logic ProofWalk ProofState SpecState ProofMemory ProofCache ProofLinks ProofDoc
  SpecPlain ProofPlain SpecNewlines ProofNewlines ProofParas ProofTags ProofSections ProofBlocks ProofStateEx SpecDoc ProofDocument SpecText ProofText.
#[local] Arguments u : simpl never.

Section Pieces.
Variables (W : world) (T : textile).
Hypothesis uid_simple : simple_uid (t_uid T).
Notation br := (br_tag T).
Definition shown_as (fuel : nat) (t h : str) (s s' : pstate) : Prop :=
  piece_of T t /\ exists g s1 o, graf W T fuel t s = Ret g s1 /\ do_p_br T (wrapped g) s1 = Ret o s' /\ replace_all (rx_re BR_TAG_RE) (fun _ => br) o = h.
Inductive chain (fuel : nat) : list str -> list str -> pstate -> pstate -> Prop :=
| ChainNil s : chain fuel [] [] s s
| ChainCons t h s s1 ts hs s2 : shown_as fuel t h s s1 -> chain fuel ts hs s1 s2 -> chain fuel (t :: ts) (h :: hs) s s2.
Lemma chain_pieces fuel ts hs s s' : chain fuel ts hs s s' -> forall t, In t ts -> piece_of T t.
Proof. intros H. induction H as [|t h s s1 ts hs s2 [H1 _] H2 IH]; intros x Hx; [destruct Hx|]. destruct Hx as [<-|Hx]; auto. Qed.
Lemma piece_trim t : piece_of T t -> is_empty (trim t) = false.
Proof.
  intros H. destruct (p_first _ _ H) as (x & r & -> & Hx). destruct (is_empty _) eqn:E; auto. apply is_empty_nil in E. unfold trim in E. apply trim_by_nil in E.
  cbn [forallb] in E. rewrite Hx in E. discriminate.
Qed.
Lemma piece_step fuel a t s : bl_ext a = [] -> piece_of T t -> block_step W T (graf W T fuel) a t s =
  bind (graf W T fuel t) (fun c => bind (do_p_br T (wrapped c)) (fun o =>
    ret (mk_bl ((bl_ws a ++ replace_all (rx_re BR_TAG_RE) (fun _ => br) o) :: bl_out a) [] false [] (u "p") [] None [] false))) s.
Proof.
  intros Ha H. pose proof (piece_trim t H) as Et. destruct H as [P1 P2 P3 P4 P5 P6 (x & r & P7 & P8)]. apply anon_step; auto.
  - apply captures_no_match; auto.
  - apply is_match_no_match; auto.
  - rewrite P7. change (u " ") with [32]. cbn [starts_with]. destruct (N.eqb_spec 32 x) as [<-|]; [discriminate|reflexivity].
Qed.
Lemma shown_step fuel a t h s s' : bl_ext a = [] -> shown_as fuel t h s s' -> block_step W T (graf W T fuel) a t s =
  Ret (mk_bl ((bl_ws a ++ h) :: bl_out a) [] false [] (u "p") [] None [] false) s'.
Proof.
  intros Ha (H & g & s1 & o & E1 & E2 & E3). rewrite piece_step by auto. unfold bind. rewrite E1, E2, E3. reflexivity.
Qed.
Definition spaced (a : block_acc) : block_acc := mk_bl (bl_out a) (bl_ws a ++ [10; 10]) false (bl_ext a) (bl_tag a) (bl_atts a) (bl_cite a) (bl_closing a) (bl_eat a).
Lemma chain_fold fuel ts hs s s' : chain fuel ts hs s s' -> ts <> [] -> forall a, bl_ext a = [] ->
  exists a', foldM (block_step W T (graf W T fuel)) a (section_pieces ts) s = Ret a' s' /\
    List.concat (rev (bl_out a')) = List.concat (rev (bl_out a)) ++ bl_ws a ++ sections hs /\ bl_ext a' = [] /\ bl_eat_ws a' = false /\ bl_ws a' = [].
Proof.
  intros H. induction H as [|t h s s1 ts hs s2 H1 H2 IH]; intros Hn a Ha; [congruence|]. pose proof (shown_step fuel a t h s s1 Ha H1) as E1.
  remember (mk_bl ((bl_ws a ++ h) :: bl_out a) [] false [] (u "p") [] None [] false) as a1 eqn:Ea1. destruct ts as [|t2 ts].
  - inversion H2; subst hs. subst. eexists. cbn [section_pieces foldM]. unfold bind. rewrite E1. split; [reflexivity|]. repeat split. cbn [bl_out rev]. rewrite concat_app. cbn [List.concat sections]. rewrite app_nil_r. reflexivity.
  - destruct (IH ltac:(discriminate) (spaced a1) ltac:(subst a1; reflexivity)) as (a' & F1 & F2 & F3 & F4 & F5). exists a'.
    change (section_pieces (t :: t2 :: ts)) with (t :: [10; 10] :: section_pieces (t2 :: ts)). cbn [foldM]. unfold bind at 1. rewrite E1. unfold bind at 1. rewrite blank_step by (subst a1; reflexivity).
    fold (spaced a1). rewrite F1. repeat split; auto. rewrite F2, Ea1. cbn [spaced bl_out bl_ws rev app]. rewrite concat_app. cbn [List.concat]. rewrite app_nil_r.
    rewrite sections_cons by (inversion H2; discriminate). rewrite <- !app_assoc. reflexivity.
Qed.
Lemma panic_fold fuel p t rest l hs s s1 : chain fuel l hs s s1 -> piece_of T t -> graf W T fuel t s1 = Panic p -> forall a, bl_ext a = [] ->
  foldM (block_step W T (graf W T fuel)) a (section_pieces (l ++ t :: rest)) s = Panic p.
Proof.
  intros H Ht Hp. assert (E : forall a, bl_ext a = [] -> block_step W T (graf W T fuel) a t s1 = Panic p).
  { intros a Ha. rewrite piece_step by auto. unfold bind. rewrite Hp. reflexivity. }
  clear Ht. induction H as [s|x h s s1 ts hs s2 H1 H2 IH]; intros a Ha; cbn [app].
  - destruct rest as [|y rest]; [cbn [section_pieces foldM]|change (section_pieces (t :: y :: rest)) with (t :: [10; 10] :: section_pieces (y :: rest)); cbn [foldM]]; unfold bind at 1; rewrite E by auto; reflexivity.
  - pose proof (shown_step fuel a x h s s1 Ha H1) as E1. destruct (ts ++ t :: rest) as [|y l'] eqn:El; [destruct ts; discriminate|].
    change (section_pieces (x :: y :: l')) with (x :: [10; 10] :: section_pieces (y :: l')). cbn [foldM]. unfold bind at 1. rewrite E1. unfold bind at 1. rewrite blank_step by reflexivity.
    apply IH; auto.
Qed.
Lemma prepare_pieces ts : (forall t, In t ts -> piece_of T t) -> prepare T (sections ts) = sections ts.
Proof.
  intros H. unfold prepare. assert ((if t_restricted T then encode_html (sections ts) false false else sections ts) = sections ts) as ->.
  { destruct (t_restricted T) eqn:Er; [|reflexivity]. change (encode_html (sections ts) false false) with (esc (sections ts)). rewrite esc_sections. f_equal.
    rewrite <- (map_id ts) at 2. apply map_ext_in. intros t Ht. apply (p_esc _ _ (H t Ht)). exact Er. }
  rewrite normalize_tidy, tidy_sections by (intros s Hs; apply (p_firm _ _ (H s Hs))). apply replace_absent; [apply uid_ne; auto|].
  apply sections_uid; auto. intros x Hx. apply (p_uid _ _ (H x Hx)).
Qed.
Lemma pieces_trim ts : ts <> [] -> (forall t, In t ts -> piece_of T t) -> is_empty (trim (sections ts)) = false.
Proof.
  intros Hn H. destruct ts as [|t ts]; [congruence|]. destruct (p_first _ _ (H t (or_introl eq_refl))) as (x & r & -> & Hx). eapply trim_sections; [reflexivity|exact Hx].
Qed.
Lemma parse_pieces fuel c ts hs s1 : t_block_tags T = true -> ts <> [] -> chain fuel ts hs (new_state c) s1 -> (0 < fuel)%nat ->
  ps_notes s1 = [] -> ps_shelf s1 = [] -> no_match (rx_re TEXT_NOTELIST_RE) (sections hs) ->
  parse W T fuel c (sections ts) =
  bind (retrieve_tags T (replace_str (sections hs) (t_uid T ++ u ":glyph:") [])) (fun x =>
    bind (retrieve_urls W T x) (fun y => ret (finish T y))) s1.
Proof.
  intros Ht Hne H Hf Hn Hs Hl. pose proof (chain_pieces _ _ _ _ _ H) as Hp. unfold parse, parse_m. rewrite pieces_trim, Ht, prepare_pieces by auto.
  assert (block W T (graf W T fuel) (sections ts) (new_state c) = Ret (sections hs) s1) as EB.
  { unfold block, splitM. rewrite split_sections by (auto; intros s Hx; apply (p_firm _ _ (Hp s Hx))). cbn [of_opt]. rewrite bind_ret.
    destruct (chain_fold fuel ts hs _ _ H Hne (mk_bl [] [] false [] [] [] None [] false) eq_refl) as (a & F1 & F2 & F3 & _). unfold bind. rewrite F1, F3. change (is_empty (@nil N)) with true. cbv iota. rewrite F2. reflexivity. }
  rewrite bind_assoc. unfold bind at 1. rewrite EB.
  assert (place_note_lists T (sections hs) s1 = Ret (sections hs) s1) as EN.
  { unfold place_note_lists, modify, bind. cbn beta. rewrite Hn. cbv iota. apply no_match_replaceM. auto. }
  unfold bind at 1. rewrite EN. unfold bind at 1. unfold retrieve, bind at 1, get. rewrite Hs. destruct fuel as [|f]; [lia|].
  cbn [retrieve_loop]. unfold retrieve_pass. cbn [fold_left]. rewrite seqb_refl. reflexivity.
Qed.
Lemma parse_panic fuel c p l t rest hs s1 : t_block_tags T = true -> chain fuel l hs (new_state c) s1 -> (forall x, In x (t :: rest) -> piece_of T x) ->
  graf W T fuel t s1 = Panic p -> parse W T fuel c (sections (l ++ t :: rest)) = Panic p.
Proof.
  intros Ht H Hr Hg. assert (Hp : forall x, In x (l ++ t :: rest) -> piece_of T x).
  { intros x Hx. apply in_app_or in Hx. destruct Hx as [Hx|Hx]; [exact (chain_pieces _ _ _ _ _ H x Hx)|auto]. }
  assert (l ++ t :: rest <> []) as Hne by (destruct l; discriminate). unfold parse, parse_m. rewrite pieces_trim, Ht, prepare_pieces by auto.
  assert (block W T (graf W T fuel) (sections (l ++ t :: rest)) (new_state c) = Panic p) as EB.
  { unfold block, splitM. rewrite split_sections by (auto; intros s Hx; apply (p_firm _ _ (Hp s Hx))). cbn [of_opt]. rewrite bind_ret.
    unfold bind. rewrite (panic_fold fuel p t rest l hs (new_state c) s1 H (Hr t (or_introl eq_refl)) Hg); reflexivity. }
  rewrite bind_assoc. unfold bind at 1. rewrite EB. reflexivity.
Qed.
(** Results without placeholders and line breaks. *)
Lemma parse_shown fuel c ts hs s1 : ready T -> ts <> [] -> chain fuel ts hs (new_state c) s1 -> (0 < fuel)%nat ->
  @cache_ok (own T) (ps_cache s1) -> ps_borrowed s1 = false ->
  ps_notes s1 = [] -> ps_shelf s1 = [] -> no_match (rx_re TEXT_NOTELIST_RE) (sections hs) -> no_match (rx_re BR_PATTERN) (sections hs) ->
  contains (t_uid T) (sections hs) = false -> (forall x, In x hs -> exists v d, x = v ++ [d] /\ d <> 10) ->
  exists s', parse W T fuel c (sections ts) = Ret (sections hs) s'.
Proof.
  intros (_ & Ht & Hz) Hne H Hf Hc Hb Hn Hs Hl Hbr Eu He. rewrite (parse_pieces fuel c ts hs s1) by auto.
  rewrite replace_absent; [|pose proof (uid_ne _ uid_simple); destruct (t_uid T); [congruence|discriminate]|apply contains_more; auto].
  destruct (tags_absent T uid_simple _ Eu s1 Hc Hb) as (c2 & Hc2 & E7). destruct (urls_absent W T uid_simple _ Eu (set_cache c2 s1) Hc2 Hb) as (c3 & Hc3 & E8).
  exists (set_cache c3 (set_cache c2 s1)). unfold bind at 1. rewrite E7. unfold bind at 1. rewrite E8. unfold ret. f_equal.
  unfold finish. rewrite Hz. rewrite replace_all_no_match by auto. apply sections_end. auto.
Qed.
End Pieces.
