(** Documents of blocks of any kind, each with its own result. *)
From Verif Require Import Str Unicode Regex RegexParse RegexSnips RegexTheory RegexAuto RegexGroups Lib ModelBase ModelHtml ModelUrl
  ModelAttrs ModelInline ModelParser SpecRegex ProofRegex SpecParse ProofParse Logic ProofWalk ProofState SpecState ProofMemory ProofCache ProofLinks ProofDoc
  SpecPlain ProofPlain SpecNewlines ProofNewlines ProofParas ProofTags ProofSections ProofBlocks ProofStateEx SpecDoc ProofDocument SpecText ProofText ProofPieces.
#[local] Arguments u : simpl never.

Section Steps.
Variables (W : world) (T : textile).
Hypothesis uid_simple : simple_uid (t_uid T).
Notation br := (br_tag T).
(** A block as it stands in the document. *)
Record stands (t : str) : Prop := mk_stands {
  st_firm : firm t;
  st_esc : t_restricted T = true -> esc t = t;
  st_uid : contains (t_uid T) t = false;
  st_first : exists c r, t = c :: r /\ is_ws c = false }.
(** Its step puts its result behind those before. *)
Definition step_as (fuel : nat) (t h : str) (s s' : pstate) : Prop :=
  stands t /\ forall a, bl_ext a = [] -> exists a', block_step W T (graf W T fuel) a t s = Ret a' s' /\
    bl_out a' = (bl_ws a ++ h) :: bl_out a /\ bl_ws a' = [] /\ bl_ext a' = [] /\ bl_eat_ws a' = false.
Lemma shown_steps fuel t h s s' : shown_as W T fuel t h s s' -> step_as fuel t h s s'.
Proof.
  intros H. split.
  - destruct (proj1 H) as [P1 P2 P3 _ _ _ P7]. split; auto.
  - intros a Ha. eexists. rewrite (shown_step W T fuel a t h s s' Ha H). repeat split.
Qed.
Inductive steps (fuel : nat) : list str -> list str -> pstate -> pstate -> Prop :=
| StepsNil s : steps fuel [] [] s s
| StepsCons t h s s1 ts hs s2 : step_as fuel t h s s1 -> steps fuel ts hs s1 s2 -> steps fuel (t :: ts) (h :: hs) s s2.
Lemma steps_stand fuel ts hs s s' : steps fuel ts hs s s' -> forall t, In t ts -> stands t.
Proof. intros H. induction H as [|t h s s1 ts hs s2 [H1 _] H2 IH]; intros x Hx; [destruct Hx|]. destruct Hx as [<-|Hx]; auto. Qed.
Lemma stands_trim t : stands t -> is_empty (trim t) = false.
Proof.
  intros H. destruct (st_first _ H) as (x & r & -> & Hx). destruct (is_empty _) eqn:E; auto. apply is_empty_nil in E. unfold trim in E. apply trim_by_nil in E.
  cbn [forallb] in E. rewrite Hx in E. discriminate.
Qed.
Lemma steps_fold fuel ts hs s s' : steps fuel ts hs s s' -> ts <> [] -> forall a, bl_ext a = [] ->
  exists a', foldM (block_step W T (graf W T fuel)) a (section_pieces ts) s = Ret a' s' /\
    List.concat (rev (bl_out a')) = List.concat (rev (bl_out a)) ++ bl_ws a ++ sections hs /\ bl_ext a' = [] /\ bl_eat_ws a' = false /\ bl_ws a' = [].
Proof.
  intros H. induction H as [|t h s s1 ts hs s2 H1 H2 IH]; intros Hn a Ha; [congruence|]. destruct H1 as [_ H1]. destruct (H1 a Ha) as (a1 & E1 & B1 & B2 & B3 & B4). destruct ts as [|t2 ts].
  - inversion H2; subst hs. subst. exists a1. cbn [section_pieces foldM]. unfold bind. rewrite E1. split; [reflexivity|]. repeat split; auto. rewrite B1. cbn [rev]. rewrite concat_app. cbn [List.concat sections]. rewrite app_nil_r. reflexivity.
  - destruct (IH ltac:(discriminate) (spaced a1) B3) as (a' & F1 & F2 & F3 & F4 & F5). exists a'.
    change (section_pieces (t :: t2 :: ts)) with (t :: [10; 10] :: section_pieces (t2 :: ts)). cbn [foldM]. unfold bind at 1. rewrite E1. unfold bind at 1. rewrite blank_step by exact B4.
    fold (spaced a1). rewrite F1. repeat split; auto. rewrite F2. cbn [spaced bl_out bl_ws]. rewrite B1, B2. cbn [rev app]. rewrite concat_app. cbn [List.concat]. rewrite app_nil_r.
    rewrite sections_cons by (inversion H2; discriminate). rewrite <- !app_assoc. reflexivity.
Qed.
Lemma prepare_steps ts : (forall t, In t ts -> stands t) -> prepare T (sections ts) = sections ts.
Proof.
  intros H. unfold prepare. assert ((if t_restricted T then encode_html (sections ts) false false else sections ts) = sections ts) as ->.
  { destruct (t_restricted T) eqn:Er; [|reflexivity]. change (encode_html (sections ts) false false) with (esc (sections ts)). rewrite esc_sections. f_equal.
    rewrite <- (map_id ts) at 2. apply map_ext_in. intros t Ht. apply (st_esc _ (H t Ht)). exact Er. }
  rewrite normalize_tidy, tidy_sections by (intros s Hs; apply (st_firm _ (H s Hs))). apply replace_absent; [apply uid_ne; auto|].
  apply sections_uid; auto. intros x Hx. apply (st_uid _ (H x Hx)).
Qed.
Lemma steps_trim ts : ts <> [] -> (forall t, In t ts -> stands t) -> is_empty (trim (sections ts)) = false.
Proof.
  intros Hn H. destruct ts as [|t ts]; [congruence|]. destruct (st_first _ (H t (or_introl eq_refl))) as (x & r & -> & Hx). eapply trim_sections; [reflexivity|exact Hx].
Qed.
Lemma parse_steps fuel c ts hs s1 : t_block_tags T = true -> ts <> [] -> steps fuel ts hs (new_state c) s1 -> (0 < fuel)%nat ->
  ps_notes s1 = [] -> ps_shelf s1 = [] -> no_match (rx_re TEXT_NOTELIST_RE) (sections hs) ->
  parse W T fuel c (sections ts) =
  bind (retrieve_tags T (replace_str (sections hs) (t_uid T ++ u ":glyph:") [])) (fun x =>
    bind (retrieve_urls W T x) (fun y => ret (finish T y))) s1.
Proof.
  intros Ht Hne H Hf Hn Hs Hl. pose proof (steps_stand _ _ _ _ _ H) as Hp. unfold parse, parse_m. rewrite steps_trim, Ht, prepare_steps by auto.
  assert (block W T (graf W T fuel) (sections ts) (new_state c) = Ret (sections hs) s1) as EB.
  { unfold block, splitM. rewrite split_sections by (auto; intros s Hx; apply (st_firm _ (Hp s Hx))). cbn [of_opt]. rewrite bind_ret.
    destruct (steps_fold fuel ts hs _ _ H Hne (mk_bl [] [] false [] [] [] None [] false) eq_refl) as (a & F1 & F2 & F3 & _). unfold bind. rewrite F1, F3. change (is_empty (@nil N)) with true. cbv iota. rewrite F2. reflexivity. }
  rewrite bind_assoc. unfold bind at 1. rewrite EB.
  assert (place_note_lists T (sections hs) s1 = Ret (sections hs) s1) as EN.
  { unfold place_note_lists, modify, bind. cbn beta. rewrite Hn. cbv iota. apply no_match_replaceM. auto. }
  unfold bind at 1. rewrite EN. unfold bind at 1. unfold retrieve, bind at 1, get. rewrite Hs. destruct fuel as [|f]; [lia|].
  cbn [retrieve_loop]. unfold retrieve_pass. cbn [fold_left]. rewrite seqb_refl. reflexivity.
Qed.
(** Results without placeholders and line breaks. *)
Lemma parse_stepped fuel c ts hs s1 : ready T -> ts <> [] -> steps fuel ts hs (new_state c) s1 -> (0 < fuel)%nat ->
  @cache_ok (own T) (ps_cache s1) -> ps_borrowed s1 = false ->
  ps_notes s1 = [] -> ps_shelf s1 = [] -> no_match (rx_re TEXT_NOTELIST_RE) (sections hs) -> no_match (rx_re BR_PATTERN) (sections hs) ->
  contains (t_uid T) (sections hs) = false -> (forall x, In x hs -> exists v d, x = v ++ [d] /\ d <> 10) ->
  exists s', parse W T fuel c (sections ts) = Ret (sections hs) s'.
Proof.
  intros (_ & Ht & Hz) Hne H Hf Hc Hb Hn Hs Hl Hbr Eu He. rewrite (parse_steps fuel c ts hs s1) by auto.
  rewrite replace_absent; [|pose proof (uid_ne _ uid_simple); destruct (t_uid T); [congruence|discriminate]|apply contains_more; auto].
  destruct (tags_absent T uid_simple _ Eu s1 Hc Hb) as (c2 & Hc2 & E7). destruct (urls_absent W T uid_simple _ Eu (set_cache c2 s1) Hc2 Hb) as (c3 & Hc3 & E8).
  exists (set_cache c3 (set_cache c2 s1)). unfold bind at 1. rewrite E7. unfold bind at 1. rewrite E8. unfold ret. f_equal.
  unfold finish. rewrite Hz. rewrite replace_all_no_match by auto. apply sections_end. auto.
Qed.
End Steps.
