(** Documents of plain blocks. *)
From Verif Require Import Str Unicode Regex RegexParse RegexSnips RegexTheory RegexAuto RegexGroups Lib ModelBase ModelHtml ModelUrl
  ModelAttrs ModelInline ModelParser SpecRegex ProofRegex SpecParse ProofParse Logic ProofWalk ProofState SpecState ProofMemory ProofCache ProofLinks ProofDoc
  SpecPlain ProofPlain SpecNewlines ProofNewlines ProofParas ProofTags ProofSections ProofBlocks SpecDoc.
#[local] Arguments u : simpl never.

(** ** The placeholder prefix *)
Definition uid_all : str := u ":Rx" ++ id_chars.
Lemma uid_chars (P : N -> bool) uid c : forallb P uid_all = true -> simple_uid uid -> In c uid -> P c = true.
Proof.
  intros HP (id & -> & H) Hc. rewrite forallb_forall in HP. apply HP. apply in_app_or in Hc. destruct Hc as [Hc|Hc].
  - assert (forallb (fun c => existsb (N.eqb c) uid_all) (u "textileRef:") = true) as E by (vm_compute; reflexivity).
    rewrite forallb_forall in E. specialize (E c Hc). apply existsb_exists in E. destruct E as (x & Hx & Ex). apply N.eqb_eq in Ex. subst. exact Hx.
  - unfold uid_all. apply in_app_or in Hc. apply in_or_app. destruct Hc as [Hc|[<-|[]]]; [right; auto|left; left; reflexivity].
Qed.
Lemma uid_without uid c : simple_uid uid -> forallb (fun x => negb (x =? c)) uid_all = true -> ~ In c uid.
Proof. intros H E F. apply (uid_chars _ _ _ E H) in F. rewrite N.eqb_refl in F. discriminate. Qed.
Lemma uid_long uid : simple_uid uid -> (12 <= List.length uid)%nat.
Proof. intros (id & -> & _). rewrite !app_length. change (List.length (u "textileRef:")) with 11%nat. change (List.length (u ":")) with 1%nat. lia. Qed.
Lemma uid_ne uid : simple_uid uid -> uid <> [].
Proof. intros H ->. apply uid_long in H. cbn in H. lia. Qed.
Lemma uid_simple_fresh uid : simple_uid uid -> uid_fresh uid.
Proof.
  intros (id & -> & H). destruct id as [|c id].
  - exists 58, []. split; reflexivity.
  - exists c, (id ++ u ":"). split; [reflexivity|].
    assert (forallb (in_cls not_here) id_chars = true) as E by (vm_compute; reflexivity). rewrite forallb_forall in E. apply E, H. left. auto.
Qed.
Lemma uid_simple_plain uid : simple_uid uid -> uid_plain uid = true.
Proof.
  intros H. unfold uid_plain. apply forallb_forall. intros c Hc. apply (uid_chars (fun c => negb (is_special c)) uid c); auto.
Qed.

Section Doc.
Variables (W : world) (T : textile).
Hypothesis uid_simple : simple_uid (t_uid T).
Notation tok n := (fragment_token T n).
Notation br := (br_tag T).
Let uid_ok : uid_plain (t_uid T) = true := uid_simple_plain _ uid_simple.
Let uid_new : uid_fresh (t_uid T) := uid_simple_fresh _ uid_simple.

Lemma tok_inert n : inert T (tok n).
Proof.
  destruct (token_accepts (t_uid T) n uid_simple) as (H1 & H2 & H3). fold (tok n) in *. constructor.
  - intros r Hr. assert (In r (INLINE_RX ++ TAG_PATTERNS)) as Hr' by (apply in_or_app; auto). split; eapply never_rx; eauto using token_inline.
  - intros r Hr. eapply never_rx; eauto using token_glyph.
  - split; apply no_match_ch; eapply never_in; eauto using token_small; cbn; tauto.
  - unfold needle. apply contains_suffix. change (u "linkStartMarker:") with (u "linkStartMarke" ++ 114 :: [58]). apply (no_contains _ (ch 114)); [|reflexivity].
    apply (never_in _ _ linkStart _ token_small H3). cbn; tauto.
  - apply no_end_newline. eapply never_in; eauto using token_small. cbn; tauto.
Qed.

(** ** A signature *)
Definition known_tag (light : bool) : list str := if light then [u "bq"; u "bc"; u "p"] else SIGNATURES.
Lemma signature_step graf a tag t s : bl_ext a = [] -> In tag (known_tag (t_lite T)) -> is_empty (trim (tag ++ u ". " ++ t)) = false ->
  block_step W T graf a (tag ++ u ". " ++ t) s =
  bind (block_new W T graf tag [] None t) (fun b =>
    bind (do_p_br T (bk_outer_opening b ++ bk_inner_opening b ++ bk_content b ++ bk_inner_closing b ++ bk_outer_closing b)) (fun o =>
      ret (mk_bl (if bk_eat b then bl_out a else (bl_ws a ++ replace_all (rx_re BR_TAG_RE) (fun _ => br) o) :: bl_out a)
                 (if bk_eat b then bl_ws a else []) (bk_eat b) [] tag [] None (bk_outer_closing b) (bk_eat b)))) s.
Proof.
  intros Ha Ht Hne. unfold block_step. rewrite Hne, Ha. change (is_empty (@nil N)) with true. cbv iota.
  destruct (signature_captures (t_lite T) tag t Ht) as (h & E & C1 & C2 & C3 & C4 & C5). rewrite E.
  unfold cap_or, cap_opt. rewrite C1, C2, C3, C4, C5. change (is_empty (@nil N)) with true. cbv iota.
  rewrite bind_assoc. apply bind_ext. intros b s1. rewrite bind_ret. cbn [negb andb]. reflexivity.
Qed.
Lemma signature_trim tag t : In tag (known_tag (t_lite T)) -> is_empty (trim (tag ++ u ". " ++ t)) = false.
Proof.
  intros H. assert (exists c r, tag = c :: r /\ is_ws c = false) as (c & r & -> & Hc).
  { unfold known_tag in H. destruct (t_lite T); cbn [In SIGNATURES] in H; repeat (destruct H as [<-|H]; [eexists _, _; split; reflexivity|]); destruct H. }
  destruct (is_empty _) eqn:E; auto. apply is_empty_nil in E. unfold trim in E. apply trim_by_nil in E. cbn [app forallb] in E. rewrite Hc in E. discriminate.
Qed.

(** ** Each block *)
Definition stored (b : plain_block) : option str :=
  match b with Code t | Pre t => Some (encode_html t true false) | Raw t => Some t | _ => None end.
Definition kept (b : plain_block) (s : pstate) : pstate :=
  match stored b with
  | Some x => set_shelf (im_insert (tok (ps_ref_index s + 1)) x (ps_shelf s)) (set_ref_index (ps_ref_index s + 1) s)
  | None => s
  end.
Lemma shelve_kept x s : shelve T x s = Ret (tok (ps_ref_index s + 1)) (set_shelf (im_insert (tok (ps_ref_index s + 1)) x (ps_shelf s)) (set_ref_index (ps_ref_index s + 1) s)).
Proof. reflexivity. Qed.
Definition allowed (b : plain_block) : Prop := t_lite T = true -> lite_block b = true.
Lemma nl_space_para t : accepts paragraph t -> no_match nl_space t.
Proof. intros H. eapply never_ok; [exact H|vm_compute; reflexivity]. Qed.
Lemma para_60 t : accepts paragraph t -> ~ In 60 t.
Proof. intros H. apply no_match_ch. apply (para_small t); auto. cbn; tauto. Qed.
Lemma element_br_tag tag t : In tag PBR_NAMES -> ~ In 60 t ->
  replace_all (rx_re BR_TAG_RE) (fun _ => br) (element tag (breaks br t)) = element tag (breaks br t).
Proof.
  intros Ht H. unfold replace_all, segs. apply brs_tag; [apply br_is|].
  pose proof (element_brs br br tag t [] [] (br_is T) Ht H (brs_nil _ _)) as E. rewrite !app_nil_r in E. exact E.
Qed.
Lemma fence_quiet n b : match b with Para _ | Heading _ _ => False | _ => True end ->
  (forall s, do_p_br T (staged T n b) s = Ret (staged T n b) s) /\ replace_all (rx_re BR_TAG_RE) (fun _ => br) (staged T n b) = staged T n b.
Proof.
  intros Hb. assert (accepts fence (staged T n b)) as Ha.
  { unfold accepts. rewrite <- (app_nil_r (staged T n b)). apply (fence_suf T uid_simple fence n b []); auto; [intros x Hx; exact Hx|].
    intros f Hf. constructor. exact Hf. }
  split.
  - intros s. unfold do_p_br. apply no_match_replaceM, pbr_needs_closing. eapply never_ok; [exact Ha|apply fence_closing].
  - apply replace_all_no_match. eapply never_ok; [exact Ha|apply fence_br].
Qed.
Lemma fence_new fuel n tag t x s o c1 c2 : (0 < fuel)%nat -> @cache_ok (own T) (ps_cache s) -> ps_borrowed s = false ->
  seqb tag (u "p") = false -> captures (rx_re FNID_RE) tag = None ->
  block_shape W T tag None t ba_default (ba_html_attrs ba_default) s = bind (shelve T x) (fun id => ret (mk_blk o c1 [] c2 id false)) s ->
  exists c, @cache_ok (own T) c /\
  block_new W T (graf_n W T fuel (S n)) tag [] None t s =
  Ret (mk_blk o c1 [] c2 (tok (ps_ref_index s + 1)) false) (set_cache c (set_shelf (im_insert (tok (ps_ref_index s + 1)) x (ps_shelf s)) (set_ref_index (ps_ref_index s + 1) s))).
Proof.
  intros Hf Hc Hn Hp Hfn Hs. 
  set (s1 := set_shelf (im_insert (tok (ps_ref_index s + 1)) x (ps_shelf s)) (set_ref_index (ps_ref_index s + 1) s)) in *.
  pose proof (graf_inert W T uid_ok fuel n _ Hf (tok_inert (ps_ref_index s + 1))) as G. destruct (G s1 Hc Hn) as (c & Hc' & E).
  exists c. split; auto. unfold block_new. rewrite (bind_eq _ _ _ _ (attrs_none ElNone true (t_restricted T) s)), bind_ret, Hp, bind_ret.
  assert (block_footnote T tag [] t ba_default = ret (tag, ba_default, t)) as -> by (unfold block_footnote; rewrite Hfn; reflexivity).
  rewrite bind_ret. rewrite (bind_eq _ _ _ _ Hs), bind_assoc. unfold bind at 1. rewrite shelve_kept. fold s1. rewrite bind_ret.
  cbn [bk_eat bk_content bk_outer_opening bk_outer_closing bk_inner_opening bk_inner_closing]. unfold bind. rewrite E. reflexivity.
Qed.
Lemma block_stage fuel n b a s : (0 < fuel)%nat -> plain b -> allowed b -> bl_ext a = [] -> @cache_ok (own T) (ps_cache s) -> ps_borrowed s = false ->
  exists a' c, @cache_ok (own T) c /\ block_step W T (graf_n W T fuel (S n)) a (source b) s = Ret a' (kept b (set_cache c s)) /\
    bl_out a' = (bl_ws a ++ staged T (ps_ref_index s) b) :: bl_out a /\ bl_ws a' = [] /\ bl_eat_ws a' = false /\ bl_ext a' = [].
Proof.
  intros Hf Hb Hl Ha Hc Hn. destruct b as [t|k t|t|t|t]; cbn [plain source staged] in *; unfold kept; cbn [stored].
  - pose proof (graf_inert W T uid_ok fuel n t Hf (para_inert T uid_new t Hb)) as G. destruct (G s Hc Hn) as (c & Hc' & E).
    rewrite anon_step; auto.
    2:{ apply para_trim; auto. }
    2:{ apply captures_no_match. destruct (t_lite T); apply para_block; auto; cbn; tauto. }
    2:{ apply is_match_no_match, para_block; auto; cbn; tauto. }
    2:{ destruct (para_first t Hb) as (x & r & -> & Hx). change (u " ") with [32]. cbn [starts_with]. destruct (N.eqb_spec 32 x) as [<-|]; [discriminate|reflexivity]. }
    2:{ apply para_block; auto; cbn; tauto. }
    unfold bind at 1. rewrite E. unfold wrapped. rewrite (para_raw t Hb). 
    destruct t as [|x r] eqn:Et; [destruct (paragraph_ne [] Hb eq_refl)|]. cbn [is_empty orb negb]. rewrite <- Et in *. 
    change (u "<p>" ++ t ++ u "</p>") with (element (u "p") t). unfold bind. rewrite do_p_br_element; [|left; reflexivity|apply para_60; auto|apply nl_space_para; auto].
    rewrite element_br_tag; [|left; reflexivity|apply para_60; auto]. eexists _, c. split; [exact Hc'|]. split; [reflexivity|]. cbn [bl_out bl_ws bl_eat_ws bl_ext]. auto.
  - destruct Hb as [Hk Hb]. assert (t_lite T = false) as Hl' by (destruct (t_lite T) eqn:El; auto; specialize (Hl El); discriminate).
    pose proof (graf_inert W T uid_ok fuel n t Hf (para_inert T uid_new t Hb)) as G. destruct (G s Hc Hn) as (c & Hc' & E).
    destruct (heading_name k Hk) as [Hp Hs]. assert (In (heading_tag k) (known_tag (t_lite T))) as Hs' by (rewrite Hl'; exact Hs).
    rewrite signature_step; auto using signature_trim.
    assert (block_new W T (graf_n W T fuel (S n)) (heading_tag k) [] None t s =
            Ret (mk_blk [] [] (u "<" ++ heading_tag k ++ u ">") (u "</" ++ heading_tag k ++ u ">") t false) (set_cache c s)) as Eb.
    { unfold block_new. rewrite (bind_eq _ _ _ _ (attrs_none ElNone true (t_restricted T) s)), bind_ret.
      assert (k = 1 \/ k = 2 \/ k = 3 \/ k = 4 \/ k = 5 \/ k = 6) as D by lia.
      assert (seqb (heading_tag k) (u "p") = false) as -> by (repeat (destruct D as [->|D]; [reflexivity|]); subst; reflexivity). rewrite bind_ret.
      assert (block_footnote T (heading_tag k) [] t ba_default = ret (heading_tag k, ba_default, t)) as ->.
      { unfold block_footnote. assert (captures (rx_re FNID_RE) (heading_tag k) = None) as ->; [|reflexivity].
        repeat (destruct D as [->|D]; [vm_compute; reflexivity|]); subst; vm_compute; reflexivity. }
      rewrite bind_ret. unfold block_shape.
      assert (forall w, In w [u "bq"; u "bc"; u "pre"; u "notextile"; u "###"] -> seqb (heading_tag k) w = false) as Q.
      { intros w Hw. cbn [In] in Hw. repeat (destruct Hw as [<-|Hw]; [repeat (destruct D as [->|D]; [reflexivity|]); subst; reflexivity|]). destruct Hw. }
      rewrite !Q by (cbn [In]; tauto). rewrite bind_ret. cbn [bk_eat bk_content bk_outer_opening bk_outer_closing bk_inner_opening bk_inner_closing].
      unfold bind. rewrite E. change (ba_to_string ba_default) with (@nil N). reflexivity. }
    unfold bind at 1. rewrite Eb. cbn [bk_eat bk_content bk_outer_opening bk_outer_closing bk_inner_opening bk_inner_closing].
    replace ([] ++ (u "<" ++ heading_tag k ++ u ">") ++ t ++ (u "</" ++ heading_tag k ++ u ">") ++ []) with (element (heading_tag k) t) by (unfold element; rewrite app_nil_r, <- !app_assoc; reflexivity).
    unfold bind. rewrite do_p_br_element; [|exact Hp|apply para_60; auto|apply nl_space_para; auto].
    rewrite element_br_tag; [|exact Hp|apply para_60; auto]. eexists _, c. split; [exact Hc'|]. split; [reflexivity|]. cbn [bl_out bl_ws bl_eat_ws bl_ext]. auto.
  - assert (In (u "bc") (known_tag (t_lite T))) as Hs by (unfold known_tag, SIGNATURES; destruct (t_lite T); cbn [In]; tauto).
    rewrite signature_step; auto using signature_trim.
    destruct (fence_new fuel n (u "bc") t (encode_html t true false) s (u "<pre><code>") (u "</code></pre>") [] Hf Hc Hn eq_refl eq_refl) as (c & Hc' & E).
    { reflexivity. }
    unfold bind at 1. rewrite E. cbn [bk_eat bk_content bk_outer_opening bk_outer_closing bk_inner_opening bk_inner_closing].
    replace (u "<pre><code>" ++ [] ++ tok (ps_ref_index s + 1) ++ [] ++ u "</code></pre>") with (staged T (ps_ref_index s) (Code t)) by (cbn [staged]; unfold element; rewrite <- !app_assoc; reflexivity).
    destruct (fence_quiet (ps_ref_index s) (Code t) I) as [Q1 Q2]. unfold bind. rewrite Q1, Q2. eexists _, c. split; [exact Hc'|]. split; [reflexivity|]. cbn [bl_out bl_ws bl_eat_ws bl_ext]. auto.
  - assert (t_lite T = false) as Hl' by (destruct (t_lite T) eqn:El; auto; specialize (Hl El); discriminate).
    assert (In (u "pre") (known_tag (t_lite T))) as Hs by (rewrite Hl'; unfold known_tag, SIGNATURES; cbn [In]; tauto).
    rewrite signature_step; auto using signature_trim.
    destruct (fence_new fuel n (u "pre") t (encode_html t true false) s (u "<pre>") (u "</pre>") [] Hf Hc Hn eq_refl eq_refl) as (c & Hc' & E).
    { reflexivity. }
    unfold bind at 1. rewrite E. cbn [bk_eat bk_content bk_outer_opening bk_outer_closing bk_inner_opening bk_inner_closing].
    replace (u "<pre>" ++ [] ++ tok (ps_ref_index s + 1) ++ [] ++ u "</pre>") with (staged T (ps_ref_index s) (Pre t)) by (cbn [staged]; unfold element; rewrite <- ?app_assoc; reflexivity).
    destruct (fence_quiet (ps_ref_index s) (Pre t) I) as [Q1 Q2]. unfold bind. rewrite Q1, Q2. eexists _, c. split; [exact Hc'|]. split; [reflexivity|]. cbn [bl_out bl_ws bl_eat_ws bl_ext]. auto.
  - assert (t_lite T = false) as Hl' by (destruct (t_lite T) eqn:El; auto; specialize (Hl El); discriminate).
    assert (In (u "notextile") (known_tag (t_lite T))) as Hs by (rewrite Hl'; unfold known_tag, SIGNATURES; cbn [In]; tauto).
    rewrite signature_step; auto using signature_trim.
    destruct (fence_new fuel n (u "notextile") t t s [] [] [] Hf Hc Hn eq_refl eq_refl) as (c & Hc' & E).
    { reflexivity. }
    unfold bind at 1. rewrite E. cbn [bk_eat bk_content bk_outer_opening bk_outer_closing bk_inner_opening bk_inner_closing].
    replace ([] ++ [] ++ tok (ps_ref_index s + 1) ++ [] ++ []) with (staged T (ps_ref_index s) (Raw t)) by (cbn [staged app]; rewrite app_nil_r; reflexivity).
    destruct (fence_quiet (ps_ref_index s) (Raw t) I) as [Q1 Q2]. unfold bind. rewrite Q1, Q2. eexists _, c. split; [exact Hc'|]. split; [reflexivity|]. cbn [bl_out bl_ws bl_eat_ws bl_ext]. auto.
Qed.

(** ** All blocks *)
Definition all_kept (bs : list plain_block) (s : pstate) : pstate := fold_left (fun s b => kept b s) bs s.
Lemma kept_ref b s : ps_ref_index (kept b s) = ps_ref_index s + needs b.
Proof. unfold kept. destruct b; cbn [stored needs]; cbn [ps_ref_index set_shelf set_ref_index]; lia. Qed.
Lemma kept_cache b c s : kept b (set_cache c s) = set_cache c (kept b s).
Proof. unfold kept. destruct (stored b); reflexivity. Qed.
Lemma all_kept_cache bs : forall c s, all_kept bs (set_cache c s) = set_cache c (all_kept bs s).
Proof. induction bs as [|b bs IH]; intros c s; [reflexivity|]. unfold all_kept in *. cbn [fold_left]. rewrite kept_cache. apply IH. Qed.
Lemma kept_own b s : ps_cache (kept b s) = ps_cache s /\ ps_borrowed (kept b s) = ps_borrowed s.
Proof. unfold kept. destruct (stored b); split; reflexivity. Qed.
Lemma blank_step graf a s : bl_eat_ws a = false -> block_step W T graf a [10; 10] s =
  Ret (mk_bl (bl_out a) (bl_ws a ++ [10; 10]) false (bl_ext a) (bl_tag a) (bl_atts a) (bl_cite a) (bl_closing a) (bl_eat a)) s.
Proof. intros H. unfold block_step. change (is_empty (trim [10; 10])) with true. cbv iota. rewrite H. reflexivity. Qed.
Lemma blocks_stage fuel n : (0 < fuel)%nat -> forall bs a s, bs <> [] -> (forall b, In b bs -> plain b /\ allowed b) ->
  bl_ext a = [] -> @cache_ok (own T) (ps_cache s) -> ps_borrowed s = false ->
  exists a' c, @cache_ok (own T) c /\ foldM (block_step W T (graf_n W T fuel (S n))) a (section_pieces (map source bs)) s = Ret a' (all_kept bs (set_cache c s)) /\
    List.concat (rev (bl_out a')) = List.concat (rev (bl_out a)) ++ bl_ws a ++ sections (stages T (ps_ref_index s) bs) /\ bl_ext a' = [].
Proof.
  intros Hf. induction bs as [|b bs IH]; intros a s Hne Hb Ha Hc Hn; [congruence|]. destruct (Hb b (or_introl eq_refl)) as [Hp Hal].
  destruct (block_stage fuel n b a s Hf Hp Hal Ha Hc Hn) as (a1 & c1 & Hc1 & E1 & O1 & W1 & X1 & Y1). destruct bs as [|b' bs].
  - exists a1, c1. split; auto. cbn [map section_pieces foldM]. unfold bind. rewrite E1. split; [reflexivity|]. split; [|exact Y1].
    rewrite O1. cbn [rev]. rewrite concat_app. cbn [List.concat stages sections]. rewrite app_nil_r. reflexivity.
  - cbn [map]. change (section_pieces (source b :: source b' :: map source bs)) with (source b :: [10; 10] :: section_pieces (map source (b' :: bs))).
    cbn [foldM]. set (s1 := kept b (set_cache c1 s)) in *.
    set (a2 := mk_bl (bl_out a1) (bl_ws a1 ++ [10; 10]) false (bl_ext a1) (bl_tag a1) (bl_atts a1) (bl_cite a1) (bl_closing a1) (bl_eat a1)).
    destruct (kept_own b (set_cache c1 s)) as [K1 K2].
    destruct (IH a2 s1) as (a' & c & Hc' & E & O & Y); [discriminate|intros; apply Hb; right; auto|exact Y1|unfold s1; rewrite K1; exact Hc1|unfold s1; rewrite K2; exact Hn|].
    exists a', c. split; auto. split.
    + unfold bind at 1. rewrite E1. fold s1. unfold bind at 1. rewrite blank_step by auto. fold a2. rewrite E. f_equal.
      unfold s1. unfold all_kept at 2. cbn [fold_left]. fold (all_kept (b' :: bs) (kept b (set_cache c s))). rewrite kept_cache. f_equal.
      rewrite kept_cache. reflexivity.
    + split; [|exact Y]. rewrite O. unfold a2. cbn [bl_out bl_ws]. rewrite O1, W1. cbn [rev app]. rewrite concat_app. cbn [List.concat]. rewrite app_nil_r.
      change (stages T (ps_ref_index s) (b :: b' :: bs)) with (staged T (ps_ref_index s) b :: stages T (ps_ref_index s + needs b) (b' :: bs)).
      rewrite sections_cons by discriminate. unfold s1. rewrite kept_ref. cbn [ps_ref_index set_cache]. rewrite <- !app_assoc. reflexivity.
Qed.

(** ** The shelf *)
Fixpoint entries (n : N) (bs : list plain_block) : list (str * str) :=
  match bs with
  | [] => []
  | b :: rest => match stored b with Some x => [(tok (n + 1), x)] | None => [] end ++ entries (n + needs b) rest
  end.
Lemma entries_key bs : forall n k, In k (map fst (entries n bs)) -> exists i, k = tok i /\ n < i.
Proof.
  induction bs as [|b bs IH]; intros n k H; [destruct H|]. cbn [entries] in H. rewrite map_app in H. apply in_app_or in H. destruct H as [H|H].
  - destruct (stored b); [|destruct H]. destruct H as [<-|[]]. exists (n + 1). split; [reflexivity|lia].
  - apply IH in H. destruct H as (i & -> & Hi). exists i. split; auto. destruct b; cbn [needs] in Hi; lia.
Qed.
Lemma all_kept_shelf bs : forall s, (forall k, In k (map fst (ps_shelf s)) -> exists i, k = tok i /\ i <= ps_ref_index s) ->
  ps_shelf (all_kept bs s) = ps_shelf s ++ entries (ps_ref_index s) bs.
Proof.
  induction bs as [|b bs IH]; intros s H; [rewrite app_nil_r; reflexivity|]. unfold all_kept. cbn [fold_left]. fold (all_kept bs (kept b s)).
  assert (ps_shelf (kept b s) = ps_shelf s ++ match stored b with Some x => [(tok (ps_ref_index s + 1), x)] | None => [] end) as E.
  { unfold kept. destruct (stored b); [|rewrite app_nil_r; reflexivity]. cbn [ps_shelf set_shelf]. apply im_insert_new. intros F.
    apply H in F. destruct F as (i & F & Hi). apply fragment_token_inj in F. lia. }
  rewrite IH.
  - rewrite E, kept_ref. cbn [entries]. rewrite <- app_assoc. reflexivity.
  - intros k Hk. rewrite E, map_app in Hk. apply in_app_or in Hk. rewrite kept_ref. destruct Hk as [Hk|Hk].
    + destruct (H k Hk) as (i & -> & Hi). exists i. split; auto. lia.
    + destruct b; cbn [stored map] in Hk; try contradiction; destruct Hk as [<-|[]]; (eexists; split; [reflexivity|cbn [needs]; lia]).
Qed.
Lemma all_kept_notes bs : forall s, ps_notes (all_kept bs s) = ps_notes s.
Proof. induction bs as [|b bs IH]; intros s; [reflexivity|]. unfold all_kept in *. cbn [fold_left]. rewrite IH. unfold kept. destruct (stored b); reflexivity. Qed.
Lemma all_kept_own bs : forall s, ps_cache (all_kept bs s) = ps_cache s /\ ps_borrowed (all_kept bs s) = ps_borrowed s.
Proof. induction bs as [|b bs IH]; intros s; [auto|]. unfold all_kept in *. cbn [fold_left]. destruct (IH (kept b s)) as [-> ->]. apply kept_own. Qed.

(** ** Restoring the contents *)
Lemma entity_char q c : entity q c = encode_char q false c.
Proof.
  unfold entity, encode_char. cbn [andb].
  destruct c as [|p]; [destruct q; reflexivity|]. do 6 (destruct p as [p|p|]; try (destruct q; reflexivity)).
Qed.
Lemma entities_encode q t : encode_html t q false = entities q t.
Proof. unfold encode_html, entities. induction t as [|c t IH]; [reflexivity|]. cbn [flat_map]. rewrite IH, entity_char. reflexivity. Qed.
Lemma tok_without n c : forallb (fun x => negb (x =? c)) uid_all = true -> forallb (fun x => negb (x =? c)) (u "0123456789:shelve") = true -> ~ In c (tok n).
Proof.
  intros H1 H2 F. unfold fragment_token in F. apply in_app_or in F. destruct F as [F|F]; [exact (uid_without _ _ uid_simple H1 F)|].
  rewrite forallb_forall in H2. assert (In c (u "0123456789:shelve")) as G.
  { apply in_app_or in F. destruct F as [F|F]; [|change (u "0123456789:shelve") with (u "0123456789" ++ u ":shelve"); apply in_or_app; auto].
    pose proof (dec_digits n) as D. rewrite Forall_forall in D. apply D in F.
    assert (c = 48 \/ c = 49 \/ c = 50 \/ c = 51 \/ c = 52 \/ c = 53 \/ c = 54 \/ c = 55 \/ c = 56 \/ c = 57) as E by lia.
    repeat (destruct E as [->|E]; [vm_compute; tauto|]). subst. vm_compute; tauto. }
  apply H2 in G. rewrite N.eqb_refl in G. discriminate.
Qed.
Lemma tok_ne n : tok n <> [].
Proof. unfold fragment_token. pose proof (uid_ne _ uid_simple). destruct (t_uid T); [congruence|discriminate]. Qed.
Lemma tok_absent n t : contains (t_uid T) t = false -> contains (tok n) t = false.
Proof. apply contains_more. Qed.
(** No placeholder is part of another one. *)
Lemma tok_apart i j : i <> j -> contains (tok i) (tok j) = false.
Proof.
  intros Hij. destruct (contains (tok i) (tok j)) eqn:E; auto. apply contains_split in E. destruct E as (a & b & E). exfalso.
  destruct uid_simple as (id & Eu & Hid). unfold fragment_token in E. 
  destruct a as [|x a].
  - cbn [app] in E. rewrite <- app_assoc in E. apply app_inv_head in E.
    assert (forall d1 d2 r1 r2, Forall (fun c => 48 <= c <= 57) d1 -> Forall (fun c => 48 <= c <= 57) d2 -> d1 ++ 58 :: r1 = d2 ++ 58 :: r2 -> d1 = d2) as P.
    { clear. induction d1 as [|c d1 IH]; intros [|c2 d2] r1 r2 H1 H2 E; auto; cbn [app] in E; inversion E; subst.
      - inversion H2; subst. lia. - inversion H1; subst. lia. - inversion H1; inversion H2; subst. f_equal. eapply IH; eauto. }
    change (u ":shelve") with (58 :: u "shelve") in E. rewrite <- app_assoc in E. cbn [app] in E. apply P in E; auto using dec_digits. apply dec_inj in E. congruence.
  - (* the last character of the prefix would be a digit *)
    set (P := u "textileRef:" ++ id) in *. assert (t_uid T = P ++ [58]) as Eu' by (rewrite Eu; unfold P; rewrite <- app_assoc; reflexivity).
    set (l := List.length (t_uid T)) in *. set (S7 := u ":shelve") in *.
    assert (List.length (dec j) = (List.length (x :: a) + List.length (dec i) + List.length b)%nat) as L.
    { apply (f_equal (@List.length N)) in E. rewrite !app_length in E. fold l in E. cbn [List.length] in *. lia. }
    assert (nth_error ((x :: a) ++ (t_uid T ++ dec i ++ S7) ++ b) (List.length (x :: a) + (l - 1)) = Some 58) as N1.
    { rewrite nth_error_app2 by lia. replace (List.length (x :: a) + (l - 1) - List.length (x :: a))%nat with (l - 1)%nat by lia.
      unfold l. rewrite Eu'. rewrite <- !app_assoc. rewrite nth_error_app2 by (rewrite app_length; cbn; lia). rewrite app_length. cbn [List.length].
      replace (List.length P + 1 - 1 - List.length P)%nat with O by lia. reflexivity. }
    rewrite <- E in N1. assert (1 <= l)%nat as Hl by (unfold l; rewrite Eu', app_length; cbn; lia).
    rewrite nth_error_app2 in N1 by (fold l; cbn [List.length]; lia). fold l in N1.
    assert (List.length (dec i) <> O) as Di by (destruct (dec_spec i) as [D _]; destruct (dec i); [congruence|discriminate]).
    rewrite nth_error_app1 in N1 by (cbn [List.length] in *; lia).
    apply nth_error_In in N1. pose proof (dec_digits j) as D. rewrite Forall_forall in D. apply D in N1. lia.
Qed.
Definition delimiter (c : N) : Prop := c = 10 \/ c = 60 \/ c = 62.
Lemma tok_delim n c : delimiter c -> ~ In c (tok n).
Proof. intros [->|[->| ->]]; apply tok_without; reflexivity. Qed.
Definition tokens (shelf : list (str * str)) : Prop := forall k, In k (map fst shelf) -> exists i, k = tok i.
Lemma pass_cut shelf : tokens shelf -> forall a d b, delimiter d -> retrieve_pass shelf (a ++ d :: b) = retrieve_pass shelf a ++ d :: retrieve_pass shelf b.
Proof.
  intros H a d b Hd. revert a b. unfold retrieve_pass. induction shelf as [|[k v] shelf IH]; intros a b; [reflexivity|]. cbn [fold_left fst snd].
  destruct (H k (or_introl eq_refl)) as (i & ->). rewrite replace_cut by (auto using tok_delim, tok_ne). apply IH. intros k Hk. apply H. right. auto.
Qed.
Lemma pass_absent shelf t : tokens shelf -> contains (t_uid T) t = false -> retrieve_pass shelf t = t.
Proof.
  intros H Ht. unfold retrieve_pass. induction shelf as [|[k v] shelf IH]; [reflexivity|]. cbn [fold_left fst snd].
  destruct (H k (or_introl eq_refl)) as (i & ->). rewrite replace_absent by (auto using tok_absent, tok_ne). apply IH. intros k Hk. apply H. right. auto.
Qed.
Lemma pass_token shelf i x : tokens shelf -> NoDup (map fst shelf) -> In (tok i, x) shelf -> contains (t_uid T) x = false -> retrieve_pass shelf (tok i) = x.
Proof.
  intros H. unfold retrieve_pass. induction shelf as [|[k v] shelf IH]; intros Hd Hi Hx; [destruct Hi|]. cbn [fold_left fst snd].
  assert (tokens shelf) as H' by (intros k' Hk; apply H; right; auto). cbn [map fst] in Hd. inversion Hd as [|? ? Hnk Hd']; subst.
  destruct Hi as [Hi|Hi].
  - inversion Hi; subst. rewrite replace_self by apply tok_ne. apply (pass_absent shelf); auto.
  - destruct (H k (or_introl eq_refl)) as (j & ->). rewrite replace_absent; [apply IH; auto|apply tok_ne|]. apply tok_apart. intros ->. apply Hnk. apply in_map_iff. exists (tok i, x). auto.
Qed.
Lemma entries_tokens n bs : tokens (entries n bs).
Proof. intros k Hk. apply entries_key in Hk. destruct Hk as (i & -> & _). eauto. Qed.
Lemma entries_nodup bs : forall n, NoDup (map fst (entries n bs)).
Proof.
  induction bs as [|b bs IH]; intros n; [constructor|]. cbn [entries]. destruct b; cbn [stored app map]; try (apply IH); constructor; try apply IH;
    intros F; apply entries_key in F; destruct F as (i & F & Hi); apply fragment_token_inj in F; cbn [needs] in Hi; lia.
Qed.
(** Nothing in a block looks like a placeholder. *)
Definition foreign (b : plain_block) : Prop := contains (t_uid T) (content b) = false.
Lemma uid_delim c : delimiter c -> ~ In c (t_uid T).
Proof. intros [->|[->| ->]]; apply uid_without; auto. Qed.
Lemma uid_cut c a b : delimiter c -> contains (t_uid T) (a ++ c :: b) = contains (t_uid T) a || contains (t_uid T) b.
Proof. intros H. apply contains_cut; [apply uid_delim; auto|apply uid_ne; auto]. Qed.
Lemma uid_short t : (List.length t < 12)%nat -> contains (t_uid T) t = false.
Proof. intros H. apply contains_len. pose proof (uid_long _ uid_simple). lia. Qed.
Lemma uid_breaks t x : is_br x \/ (exists y, is_br y /\ x = y ++ [10]) -> contains (t_uid T) t = false -> contains (t_uid T) (breaks x t) = false.
Proof.
  intros Hx Ht. apply (contains_subst (t_uid T) _ (uid_ne _ uid_simple)) with (w := []); [|exact Ht]. intros c. cbn beta.
  destruct (c =? 10); [right|left; reflexivity].
  assert (exists d e w, x = d :: w ++ [e] /\ delimiter d /\ delimiter e /\ (List.length w < 12)%nat) as (d & e & w & -> & Hd & He & Hw).
  { assert (forall y, is_br y -> exists w, y = 60 :: w ++ [62] /\ (List.length w < 10)%nat) as B.
    { intros y [-> | ->]; [exists (u "br")|exists (u "br /")]; (split; [reflexivity|]). 1: change (List.length (u "br")) with 2%nat; lia. change (List.length (u "br /")) with 4%nat; lia. }
    destruct Hx as [Hx|(y & Hy & ->)].
    - destruct (B x Hx) as (w & -> & Hw). exists 60, 62, w. unfold delimiter. repeat split; auto; lia.
    - destruct (B y Hy) as (w & -> & Hw). exists 60, 10, (w ++ [62]). unfold delimiter. repeat split; auto. rewrite app_length. cbn [List.length]; lia. }
  exists d, e, w. repeat split; auto using uid_delim, uid_short.
Qed.
Lemma uid_entities q t : contains (t_uid T) t = false -> contains (t_uid T) (entities q t) = false.
Proof.
  intros Ht. apply (contains_subst (t_uid T) _ (uid_ne _ uid_simple)) with (w := []); [|exact Ht]. intros c.
  assert (~ In 38 (t_uid T) /\ ~ In 59 (t_uid T)) as [H1 H2] by (split; apply uid_without; auto).
  assert (forall w, (List.length w < 12)%nat -> exists d e v, 38 :: w ++ [59] = d :: v ++ [e] /\ ~ In d (t_uid T) /\ ~ In e (t_uid T) /\ contains (t_uid T) v = false) as B.
  { intros w Hw. exists 38, 59, w. auto using uid_short. }
  rewrite entity_char. unfold encode_char. cbn [andb].
  repeat match goal with |- context [if ?x then _ else _] => destruct x end; auto; right;
    [apply (B (u "amp"))|apply (B (u "lt"))|apply (B (u "gt"))|apply (B (u "quot"))|apply (B (u "#39"))]; vm_compute; lia.
Qed.
Lemma uid_element tag t : In tag (u "pre" :: u "code" :: PBR_NAMES) -> contains (t_uid T) (element tag t) = contains (t_uid T) t.
Proof.
  intros H. unfold element. change (u "<" ++ tag ++ u ">" ++ t ++ u "</" ++ tag ++ u ">") with ([] ++ 60 :: tag ++ 62 :: t ++ 60 :: (47 :: tag) ++ [62]).
  assert (List.length tag < 11)%nat as L by (cbn [In PBR_NAMES] in H; repeat (destruct H as [<-|H]; [vm_compute; lia|]); destruct H).
  rewrite !uid_cut by (unfold delimiter; auto). rewrite (uid_short []), (uid_short tag), (uid_short (47 :: tag)) by (cbn [List.length]; lia). rewrite !orb_false_r. reflexivity.
Qed.
Lemma pass_element shelf tag t : tokens shelf -> In tag (u "pre" :: u "code" :: PBR_NAMES) -> retrieve_pass shelf (element tag t) = element tag (retrieve_pass shelf t).
Proof.
  intros Hs H. unfold element. 
  assert (List.length tag < 11)%nat as L by (cbn [In PBR_NAMES] in H; repeat (destruct H as [<-|H]; [vm_compute; lia|]); destruct H).
  assert (forall w, (List.length w < 12)%nat -> retrieve_pass shelf w = w) as Q by (intros w Hw; apply pass_absent; auto using uid_short).
  change (u "<" ++ tag ++ u ">" ++ t ++ u "</" ++ tag ++ u ">") with ([] ++ 60 :: tag ++ 62 :: t ++ 60 :: (47 :: tag) ++ [62]).
  rewrite !(pass_cut shelf Hs) by (unfold delimiter; auto). rewrite (Q []), (Q tag), (Q (47 :: tag)) by (cbn [List.length]; lia). reflexivity.
Qed.
Lemma para_uid t : accepts paragraph t -> contains (t_uid T) t = false.
Proof. intros H. apply uid_absent; auto. apply (para_small t); auto. cbn; tauto. Qed.
Lemma name_in k : 1 <= k <= 6 -> In (heading_tag k) (u "pre" :: u "code" :: PBR_NAMES).
Proof. intros H. right. right. apply heading_name. exact H. Qed.
Lemma shown_uid b x : is_br x \/ (exists y, is_br y /\ x = y ++ [10]) -> plain b -> foreign b -> contains (t_uid T) (block_html x b) = false.
Proof.
  intros Hx Hb Hfo. destruct b as [t|k t|t|t|t]; cbn [block_html plain] in *; unfold foreign in Hfo; cbn [content] in Hfo.
  - rewrite uid_element by (cbn; tauto). apply uid_breaks; auto. apply para_uid; auto.
  - rewrite uid_element by (apply name_in; tauto). apply uid_breaks; auto. apply para_uid; tauto.
  - rewrite !uid_element by (cbn; tauto). apply uid_entities; auto.
  - rewrite !uid_element by (cbn; tauto). apply uid_entities; auto.
  - exact Hfo.
Qed.
Lemma pass_block shelf n b : tokens shelf -> NoDup (map fst shelf) -> plain b -> foreign b -> (forall x, stored b = Some x -> In (tok (n + 1), x) shelf) ->
  retrieve_pass shelf (staged T n b) = block_html br b.
Proof.
  intros Hs Hd Hb Hf Hi. assert (forall b', staged T n b' = block_html br b' -> plain b' -> foreign b' -> retrieve_pass shelf (staged T n b') = block_html br b') as P.
  { intros b' E H1 H2. rewrite E. apply pass_absent; auto. apply shown_uid; auto. left. apply br_is. }
  destruct b as [t|k t|t|t|t]; [apply P; auto|apply P; auto| | |]; cbn [staged block_html stored] in *; unfold foreign in Hf; cbn [content] in Hf.
  - rewrite !pass_element by (auto; cbn; tauto). rewrite (pass_token shelf (n + 1) (encode_html t true false)); auto.
    + rewrite entities_encode. reflexivity. + rewrite entities_encode. apply uid_entities; auto.
  - rewrite !pass_element by (auto; cbn; tauto). rewrite (pass_token shelf (n + 1) (encode_html t true false)); auto.
    + rewrite entities_encode. reflexivity. + rewrite entities_encode. apply uid_entities; auto.
  - apply (pass_token shelf (n + 1) t); auto.
Qed.
Lemma pass_sections shelf bs : forall n, tokens shelf -> NoDup (map fst shelf) -> (forall b, In b bs -> plain b /\ foreign b) -> incl (entries n bs) shelf ->
  retrieve_pass shelf (sections (stages T n bs)) = sections (map (block_html br) bs).
Proof.
  induction bs as [|b bs IH]; intros n Hs Hd Hb Hi.
  - apply pass_absent; auto. apply uid_short. cbn; lia.
  - assert (retrieve_pass shelf (staged T n b) = block_html br b) as E.
    { destruct (Hb b (or_introl eq_refl)). apply pass_block; auto. intros x Hx. apply Hi. cbn [entries]. rewrite Hx. left. reflexivity. }
    cbn [stages map]. destruct bs as [|b' bs]; [exact E|]. rewrite !sections_cons by discriminate. 
    change (staged T n b ++ 10 :: 10 :: ?x) with (staged T n b ++ 10 :: [] ++ 10 :: x).
    rewrite !(pass_cut shelf Hs) by (left; auto). rewrite (pass_absent shelf []) by (auto; apply uid_short; cbn; lia). rewrite E, IH; auto.
    + intros; apply Hb; right; auto. + intros x Hx. apply Hi. cbn [entries]. apply in_or_app. right. exact Hx.
Qed.
Lemma sections_uid l : (forall x, In x l -> contains (t_uid T) x = false) -> contains (t_uid T) (sections l) = false.
Proof.
  induction l as [|x l IH]; intros H; [apply uid_short; cbn; lia|]. destruct l as [|y l]; [apply H; left; auto|]. rewrite sections_cons by discriminate.
  change (x ++ 10 :: 10 :: ?z) with (x ++ 10 :: [] ++ 10 :: z). rewrite !uid_cut by (left; auto). rewrite (H x) by (left; auto).
  rewrite (uid_short []) by (cbn; lia). rewrite IH; auto. intros; apply H; right; auto.
Qed.

(** ** The source *)
Lemma lines_at l : forall t, In l (lines t) -> exists a b, t = a ++ l ++ b /\ (a = [] \/ exists a', a = a' ++ [10]) /\ (b = [] \/ exists b', b = 10 :: b').
Proof.
  intros t Hl. rewrite <- (unlines_lines t) in *. rewrite (unlines_lines t) in Hl. revert Hl. generalize (lines t). intros ls. induction ls as [|x ls IH]; intros Hl; [destruct Hl|].
  destruct ls as [|y ls].
  - destruct Hl as [->|[]]. exists [], []. cbn [unlines app]. rewrite app_nil_r. auto.
  - rewrite unlines_cons by discriminate. destruct Hl as [->|Hl].
    + exists [], (10 :: unlines (y :: ls)). repeat split; auto. right. eauto.
    + destruct (IH Hl) as (a & b & E & Ha & Hb). exists (x ++ 10 :: a), b. rewrite E, <- app_assoc. cbn [app]. repeat split; auto. right.
      destruct Ha as [->|(a' & ->)]; [exists x; reflexivity|]. exists (x ++ 10 :: a'). rewrite <- app_assoc. reflexivity.
Qed.
Lemma para_firm t : accepts paragraph t -> firm t.
Proof.
  intros H. split; [apply no_match_ch, (para_small t); auto; cbn; tauto|]. intros l Hl. destruct (blank_line l) eqn:E; auto. exfalso.
  destruct (lines_at l t Hl) as (a & b & -> & Ha & Hb).
  assert (no_match line_blank (a ++ l ++ b)) as Hn by (apply (para_small (a ++ l ++ b)); auto; cbn; tauto).
  specialize (Hn a (l ++ b) eq_refl). unfold match_at, line_blank in Hn. rewrite m_seq, m_assert in Hn.
  assert (assert_holds SOL (rev a) (l ++ b) = true) as Es by (destruct Ha as [->|(a' & ->)]; [reflexivity|]; rewrite rev_app_distr; reflexivity). rewrite Es, m_seq in Hn.
  change (l ++ b) with (l ++ [] ++ b) in Hn. erewrite (m_star_back tab_blank _ _ [] l) in Hn; [discriminate| | | |].
  - rewrite app_nil_r. clear - E. unfold blank_line in E. rewrite forallb_forall in *. intros c Hc. specialize (E c Hc).
    apply orb_prop in E. destruct E as [E|E]; apply N.eqb_eq in E; subst; reflexivity.
  - destruct Hb as [->|(b' & ->)]; exact I || reflexivity.
  - rewrite m_assert. cbn [app]. assert (assert_holds EOL (rev l ++ rev a) b = true) as -> by (destruct Hb as [->|(b' & ->)]; reflexivity). reflexivity.
  - intros v1 v2 x F. destruct v1; discriminate.
Qed.
Lemma firm_prefix p t : ~ In 10 p -> ~ In 13 p -> blank_line p = false -> (~ In 13 t /\ forall l, In l (lines t) -> blank_line l = false) -> firm (p ++ t).
Proof.
  intros H10 H13 Hp [H1 H2]. split; [intros F; apply in_app_or in F; tauto|]. intros l. rewrite lines_plain by auto.
  destruct (lines_some t) as (x & xs & E). rewrite E in *. intros [<-|Hl]; [|apply H2; right; auto]. rewrite blank_line_app, Hp. reflexivity.
Qed.
Lemma source_firm b : plain b -> firm (source b).
Proof.
  intros H. destruct b as [t|k t|t|t|t]; cbn [plain source] in *.
  - apply para_firm; auto.
  - destruct H as [Hk H]. rewrite app_assoc. assert (k = 1 \/ k = 2 \/ k = 3 \/ k = 4 \/ k = 5 \/ k = 6) as D by lia. pose proof (para_firm t H) as F.
    apply firm_prefix; auto; clear F; repeat (destruct D as [->|D]; [vm_compute; intuition discriminate|]); subst; vm_compute; intuition discriminate.
  - rewrite app_assoc. apply firm_prefix; auto; vm_compute; intuition discriminate.
  - rewrite app_assoc. apply firm_prefix; auto; vm_compute; intuition discriminate.
  - rewrite app_assoc. apply firm_prefix; [| | |exact (proj1 H)]; vm_compute; intuition discriminate.
Qed.

(** ** Restricted mode *)
Lemma esc_entities t : esc t = entities false t.
Proof. apply entities_encode. Qed.
Lemma esc_id t : ~ In 38 t -> ~ In 60 t -> ~ In 62 t -> esc t = t.
Proof.
  induction t as [|c t IH]; intros H1 H2 H3; [reflexivity|]. assert (~ In 38 t /\ ~ In 60 t /\ ~ In 62 t) as (N1 & N2 & N3) by (repeat split; intros F; [apply H1|apply H2|apply H3]; right; auto). rewrite esc_cons, IH by auto.
  unfold encode_char. cbn [andb]. destruct (N.eqb_spec c 38) as [->|]; [destruct H1; left; auto|]. destruct (N.eqb_spec c 60) as [->|]; [destruct H2; left; auto|].
  destruct (N.eqb_spec c 62) as [->|]; [destruct H3; left; auto|]. reflexivity.
Qed.
Lemma esc_13 t : ~ In 13 t -> ~ In 13 (esc t).
Proof.
  intros H F. unfold esc, encode_html in F. apply in_flat_map in F. destruct F as (c & Hc & F). 
  destruct (esc_char c) as [E|(x & w & E & _ & N13 & _)]; rewrite E in F; [|tauto]. destruct F as [F|[]]. subst. auto.
Qed.
Lemma esc_60 t : ~ In 60 (esc t).
Proof.
  intros F. unfold esc, encode_html in F. apply in_flat_map in F. destruct F as (c & Hc & F). unfold encode_char in F. cbn [andb] in F.
  destruct (N.eqb_spec c 38); [vm_compute in F; intuition discriminate|]. destruct (N.eqb_spec c 60); [vm_compute in F; intuition discriminate|].
  destruct (N.eqb_spec c 62); [vm_compute in F; intuition discriminate|]. destruct F as [F|[]]. congruence.
Qed.
Lemma code_esc t : code_text t -> code_text (esc t).
Proof.
  intros [H1 H2]. split; [apply esc_13; auto|]. intros l Hl. rewrite lines_esc in Hl. apply in_map_iff in Hl. destruct Hl as (x & <- & Hx). rewrite blank_esc. auto.
Qed.
Lemma no_lt_no_br t : ~ In 60 t -> no_br t.
Proof. intros H a x y b -> _ _. apply H. apply in_or_app. right. left. auto. Qed.
Lemma restricted_plain b : plain b -> plain (restricted_block b).
Proof.
  destruct b as [t|k t|t|t|t]; cbn [plain restricted_block]; auto; rewrite <- ?esc_entities; try (apply code_esc).
  intros [H _]. split; [apply code_esc; auto|]. apply no_lt_no_br, esc_60.
Qed.
Lemma restricted_foreign b : foreign b -> foreign (restricted_block b).
Proof. destruct b; unfold foreign; cbn [content restricted_block]; auto; apply uid_entities. Qed.
Lemma restricted_allowed b : allowed b -> allowed (restricted_block b).
Proof. unfold allowed. destruct b; auto. Qed.
Lemma para_esc t : accepts paragraph t -> esc t = t.
Proof. intros H. apply esc_id; apply no_match_ch, (para_small t); auto; cbn; tauto. Qed.
Lemma source_esc b : plain b -> esc (source b) = source (restricted_block b).
Proof.
  intros H. destruct b as [t|k t|t|t|t]; cbn [plain source restricted_block] in *; rewrite ?esc_app.
  - apply para_esc; auto.
  - destruct H as [Hk H]. rewrite (para_esc t H). f_equal. assert (k = 1 \/ k = 2 \/ k = 3 \/ k = 4 \/ k = 5 \/ k = 6) as D by lia.
    repeat (destruct D as [->|D]; [reflexivity|]); subst; reflexivity.
  - rewrite <- esc_entities. reflexivity.
  - rewrite <- esc_entities. reflexivity.
  - rewrite <- esc_entities. reflexivity.
Qed.
Lemma esc_sections l : esc (sections l) = sections (map esc l).
Proof.
  induction l as [|x l IH]; [reflexivity|]. destruct l as [|y l]; [reflexivity|]. cbn [map]. rewrite !sections_cons by discriminate. rewrite esc_app.
  change (10 :: 10 :: ?z) with ([10; 10] ++ z) at 1. rewrite (esc_app [10; 10]), IH. reflexivity.
Qed.
Definition adapted (bs : list plain_block) : list plain_block := if t_restricted T then map restricted_block bs else bs.
Lemma source_uid b : plain b -> foreign b -> contains (t_uid T) (source b) = false.
Proof.
  intros H Hf. assert (forall p t, (List.length p < 12)%nat -> contains (t_uid T) t = false -> contains (t_uid T) (p ++ u ". " ++ t) = false) as Q.
  { intros p t Hp Ht. change (u ". ") with [46; 32]. cbn [app]. rewrite contains_cut by (try apply uid_ne; auto; apply uid_without; auto).
    change (32 :: t) with ([] ++ 32 :: t). rewrite contains_cut by (try apply uid_ne; auto; apply uid_without; auto). rewrite (uid_short p), (uid_short []) by (auto; cbn; lia). exact Ht. }
  destruct b as [t|k t|t|t|t]; cbn [plain source] in *; unfold foreign in Hf; cbn [content] in Hf.
  - apply para_uid; auto.
  - apply Q; [cbn; lia|]. apply para_uid; tauto.
  - apply Q; auto; vm_compute; lia. - apply Q; auto; vm_compute; lia. - apply Q; auto; vm_compute; lia.
Qed.
Definition fine (bs : list plain_block) : Prop := forall b, In b bs -> plain b /\ foreign b /\ allowed b.
Lemma adapted_fine bs : fine bs -> fine (adapted bs).
Proof.
  intros H b Hb. unfold adapted in Hb. destruct (t_restricted T); [|auto]. apply in_map_iff in Hb. destruct Hb as (x & <- & Hx). destruct (H x Hx) as (H1 & H2 & H3).
  auto using restricted_plain, restricted_foreign, restricted_allowed.
Qed.
Lemma prepare_doc bs : fine bs -> prepare T (sections (map source bs)) = sections (map source (adapted bs)).
Proof.
  intros H. unfold prepare. 
  assert (normalize_newlines (if t_restricted T then encode_html (sections (map source bs)) false false else sections (map source bs)) = sections (map source (adapted bs))) as ->.
  { replace (if t_restricted T then encode_html (sections (map source bs)) false false else sections (map source bs)) with (sections (map source (adapted bs))).
    - rewrite normalize_tidy. apply tidy_sections. intros s Hs. apply in_map_iff in Hs. destruct Hs as (b & <- & Hb). apply source_firm. apply (adapted_fine bs H b Hb).
    - unfold adapted. destruct (t_restricted T); [|reflexivity]. fold (esc (sections (map source bs))). rewrite esc_sections, !map_map. f_equal. apply map_ext_in.
      intros b Hb. symmetry. apply source_esc. apply (H b Hb). }
  apply replace_absent; [apply uid_ne; auto|]. apply sections_uid. intros x Hx. apply in_map_iff in Hx. destruct Hx as (b & <- & Hb).
  destruct (adapted_fine bs H b Hb) as (H1 & H2 & _). apply source_uid; auto.
Qed.

(** ** The end *)
Notation fb := (final_br T).
Lemma final_is : fb = br ++ [10].
Proof. unfold final_br, br_tag. destruct (t_html T); reflexivity. Qed.
Lemma brs_app p a b : ~ In 60 p -> brs br fb a b -> brs br fb (p ++ a) (p ++ b).
Proof.
  induction p as [|c p IH]; intros Hp Hab; [exact Hab|]. cbn [app]. apply brs_char; [intros ->; apply Hp; left; auto|].
  apply IH; auto. intros F. apply Hp. right. auto.
Qed.
Lemma brs_element tag t a b : In tag [u "pre"; u "code"] -> (forall x y, brs br fb x y -> brs br fb (t ++ x) (t ++ y)) -> brs br fb a b -> brs br fb (element tag t ++ a) (element tag t ++ b).
Proof.
  intros Ht Hc Hab. unfold element. change (u "<" ++ tag ++ u ">" ++ t ++ u "</" ++ tag ++ u ">") with (60 :: tag ++ 62 :: t ++ 60 :: 47 :: tag ++ [62]).
  assert (forall z, (60 :: tag ++ 62 :: t ++ 60 :: 47 :: tag ++ [62]) ++ z = 60 :: (tag ++ [62]) ++ t ++ 60 :: (47 :: tag ++ [62]) ++ z) as Ea
    by (intros z; cbn [app]; repeat (rewrite <- app_assoc; cbn [app]); reflexivity).
  rewrite !Ea.
  assert (~ In 60 (tag ++ [62])) as N by (cbn [In] in Ht; destruct Ht as [<-|[<-|[]]]; vm_compute; intuition discriminate).
  apply brs_other; [cbn [In] in Ht; destruct Ht as [<-|[<-|[]]]; [change (u "pre") with [112; 114; 101]|change (u "code") with [99; 111; 100; 101]]; cbn; intuition discriminate|]. apply brs_app; auto. apply Hc.
  apply brs_other; [cbn [app]; destruct ((tag ++ [62]) ++ a); cbn; intuition discriminate|]. apply brs_app; auto. intros [F|F]; [discriminate|auto].
Qed.
Lemma raw_brs t a b : no_br t -> brs br fb a b -> (a = [] \/ exists r, a = 10 :: r) -> brs br fb (t ++ a) (t ++ b).
Proof.
  intros Ht Hab Ha. induction t as [|c t IH]; [exact Hab|]. cbn [app]. assert (brs br fb (t ++ a) (t ++ b)) as IH'.
  { apply IH. intros a' x y b' -> . apply (Ht (c :: a') x y b'). reflexivity. }
  destruct (N.eqb_spec c 60) as [->|]; [|apply brs_char; auto]. apply brs_other; auto.
  destruct t as [|x t]; [destruct Ha as [->|(r & ->)]; [exact I|]; destruct r as [|z r]; cbn [app not_br]; auto; intuition discriminate|].
  destruct t as [|y t]; [destruct Ha as [->|(r & ->)]; cbn [app not_br]; auto; intuition discriminate|].
  cbn [app not_br]. apply (Ht [] x y t). reflexivity.
Qed.
Lemma entities_60 q t : ~ In 60 (entities q t).
Proof.
  intros F. unfold entities in F. apply in_flat_map in F. destruct F as (c & Hc & F). rewrite entity_char in F. unfold encode_char in F. cbn [andb] in F.
  destruct (N.eqb_spec c 60); [destruct (c =? 38); vm_compute in F; intuition discriminate|].
  repeat match goal with H : context [if ?x then _ else _] |- _ => destruct x; [vm_compute in H; intuition discriminate|] end. destruct F as [F|[]]. congruence.
Qed.
Lemma block_brs bk a b : plain bk -> brs br fb a b -> (a = [] \/ exists r, a = 10 :: r) -> brs br fb (block_html br bk ++ a) (block_html fb bk ++ b).
Proof.
  intros H Hab Ha. destruct bk as [t|k t|t|t|t]; cbn [plain block_html] in *.
  - apply element_brs; auto using br_is, para_60. left. reflexivity.
  - apply element_brs; auto using br_is; [apply heading_name; tauto|apply para_60; tauto].
  - apply brs_element; auto; [cbn; tauto|]. intros x y Hxy. apply brs_element; auto; [cbn; tauto|]. intros x' y' Hxy'. apply brs_app; auto using entities_60.
  - apply brs_element; auto; [cbn; tauto|]. intros x' y' Hxy'. apply brs_app; auto using entities_60.
  - apply raw_brs; tauto.
Qed.
Lemma sections_brs bs : (forall b, In b bs -> plain b) -> brs br fb (sections (map (block_html br) bs)) (sections (map (block_html fb) bs)).
Proof.
  induction bs as [|b bs IH]; intros H; [constructor|]. destruct bs as [|b' bs].
  - cbn [map sections]. rewrite <- (app_nil_r (block_html br b)), <- (app_nil_r (block_html fb b)). apply block_brs; auto; [apply H; left; auto|constructor].
  - cbn [map]. rewrite !sections_cons by discriminate. apply block_brs; [apply H; left; auto| |right; eauto].
    apply brs_char; [discriminate|]. apply brs_char; [discriminate|]. apply IH. intros; apply H; right; auto.
Qed.
Lemma block_last x b : plain b -> exists v d, block_html x b = v ++ [d] /\ d <> 10.
Proof.
  intros H. assert (forall tag t, exists v, element tag t = v ++ [62]) as Q.
  { intros tag t. exists (u "<" ++ tag ++ u ">" ++ t ++ u "</" ++ tag). unfold element. rewrite <- !app_assoc. reflexivity. }
  destruct b as [t|k t|t|t|t]; cbn [block_html]; try (match goal with |- context [element ?a ?b] => destruct (Q a b) as (v & ->) end; exists v, 62; split; [reflexivity|discriminate]).
  apply firm_last. exact (proj1 H).
Qed.
Lemma sections_end (l : list str) : (forall x, In x l -> exists v d, x = v ++ [d] /\ d <> 10) -> trim_end_matches 10 (sections l) = sections l.
Proof.
  intros H. apply trim_end_by_id. assert (l = [] \/ exists v d, sections l = v ++ [d] /\ d <> 10) as [->|(v & d & E & Hd)].
  { induction l as [|x l IH]; [auto|right]. destruct l as [|y l]; [apply (H x); left; auto|].
    destruct IH as [F|(v & d & E & Hd)]; [intros; apply H; right; auto|discriminate|]. rewrite sections_cons by discriminate. rewrite E.
    exists (x ++ 10 :: 10 :: v), d. rewrite <- app_assoc. auto. }
  - intros r c F. destruct r; discriminate.
  - intros r c F. rewrite E in F. apply app_inj_tail in F. destruct F as [_ ->]. apply N.eqb_neq. congruence.
Qed.
Lemma finish_doc bs : t_sanitize T = None -> (forall b, In b bs -> plain b) -> finish T (sections (map (block_html br) bs)) = sections (map (block_html fb) bs).
Proof.
  intros Hs H. unfold finish. rewrite Hs. unfold replace_all, segs. erewrite brs_pattern; [|apply br_is|apply sections_brs; auto].
  apply sections_end. intros x Hx. apply in_map_iff in Hx. destruct Hx as (b & <- & Hb). apply block_last; auto.
Qed.

(** ** The document *)
Lemma lit_then_none uid r t : contains uid t = false -> no_match (lit_then uid r) t.
Proof.
  intros H a b E. destruct (match_at (lit_then uid r) (rev a) b) as [s|] eqn:M; auto. apply match_at_sound in M. apply mat_lit in M.
  destruct M as (s1 & [M _] & _). cbn [m_after] in M. rewrite E, M in H. rewrite contains_mid in H. discriminate.
Qed.
Lemma leaves_cached_k {A B} line tag r (body : rx -> M A) x (k : A -> M B) y : expected (t_uid T) line tag = Some r ->
  (forall s, body r s = Ret x s) -> leaves T (k x) y ->
  leaves T (bind acquire (fun _ => bind (cached line tag (Some r)) (fun p => bind (body p) (fun a => bind release (fun _ => k a))))) y.
Proof.
  intros H1 H2 H3. pose proof (leaves_bind T _ k x y (leaves_cached T line tag r body x H1 H2) H3) as L. eapply leaves_ext; [|exact L]. intros s.
  rewrite bind_assoc. apply bind_ext. intros _ s1. rewrite bind_assoc. apply bind_ext. intros p s2. rewrite bind_assoc. apply bind_ext. intros a s3.
  rewrite bind_assoc. apply bind_ext. intros _ s4. rewrite bind_ret. reflexivity.
Qed.
Lemma tags_absent t : contains (t_uid T) t = false -> leaves T (retrieve_tags T t) t.
Proof.
  intros H. unfold retrieve_tags.
  assert (exists r1, ospan_token_re (t_uid T) = Some r1 /\ no_match (rx_re r1) t) as (r1 & E1 & N1).
  { unfold ospan_token_re. rewrite uid_ok. eexists. split; [reflexivity|]. cbn [rx_re]. apply lit_then_none; auto. }
  assert (exists r2, cspan_token_re (t_uid T) = Some r2 /\ no_match (rx_re r2) t) as (r2 & E2 & N2).
  { unfold cspan_token_re. rewrite uid_ok. eexists. split; [reflexivity|]. cbn [rx_re]. apply lit_then_none. apply (contains_suffix [32]). auto. }
  rewrite E1, E2. eapply leaves_cached_k with (x := t).
  - exact E1.
  - intros s. apply no_match_replaceM; auto.
  - apply (leaves_cached T 1619 [] r2 (fun p => replace_allM (rx_re p) retrieve_tag_hit t)); [exact E2|]. intros s. apply no_match_replaceM; auto.
Qed.
Lemma urls_absent t : contains (t_uid T) t = false -> leaves T (retrieve_urls W T t) t.
Proof.
  intros H. unfold retrieve_urls.
  assert (exists r1, url_token_re (t_uid T) = Some r1 /\ no_match (rx_re r1) t) as (r1 & E1 & N1).
  { unfold url_token_re. rewrite uid_ok. eexists. split; [reflexivity|]. cbn [rx_re]. apply lit_then_none; auto. }
  rewrite E1. apply (leaves_cached T 413 [] r1 (fun p => replace_allM (rx_re p) (retrieve_url_hit W) t)); [exact E1|]. intros s. apply no_match_replaceM; auto.
Qed.
Lemma restore fuel bs s : (1 < fuel)%nat -> (forall b, In b bs -> plain b /\ foreign b) -> ps_shelf s = entries 0 bs ->
  retrieve fuel (sections (stages T 0 bs)) s = Ret (sections (map (block_html br) bs)) s.
Proof.
  intros Hf Hb Hs. unfold retrieve, bind, get. rewrite Hs. 
  pose proof (pass_sections (entries 0 bs) bs 0 (entries_tokens 0 bs) (entries_nodup bs 0) Hb (fun x H => H)) as E1.
  assert (retrieve_pass (entries 0 bs) (sections (map (block_html br) bs)) = sections (map (block_html br) bs)) as E2.
  { apply pass_absent; [apply entries_tokens|]. apply sections_uid. intros x Hx. apply in_map_iff in Hx. destruct Hx as (b & <- & Hx). destruct (Hb b Hx).
    apply shown_uid; auto. left. apply br_is. }
  destruct fuel as [|[|f]]; [lia|lia|]. cbn [retrieve_loop]. rewrite E1. destruct (seqb _ (sections (stages T 0 bs))) eqn:Eq; [reflexivity|].
  rewrite E2. rewrite seqb_refl. reflexivity.
Qed.
Lemma trim_sections l c r rest : l = (c :: r) :: rest -> is_ws c = false -> is_empty (trim (sections l)) = false.
Proof.
  intros -> Hc. assert (exists w, sections ((c :: r) :: rest) = c :: w) as (w & ->) by (destruct rest; eexists; reflexivity).
  destruct (is_empty _) eqn:E; auto. apply is_empty_nil in E. unfold trim in E. apply trim_by_nil in E. cbn [forallb] in E. rewrite Hc in E. discriminate.
Qed.
Lemma source_first b : plain b -> exists c r, source b = c :: r /\ is_ws c = false.
Proof.
  intros H. destruct b as [t|k t|t|t|t]; cbn [source plain] in *; try (eexists _, _; split; reflexivity). apply para_first; auto.
Qed.
Lemma parse_plain fuel c bs : (1 < fuel)%nat -> @cache_ok (own T) c -> t_sanitize T = None -> t_block_tags T = true -> fine bs ->
  exists s, parse W T fuel c (sections (map source bs)) = Ret (sections (map (block_html fb) (adapted bs))) s.
Proof.
  intros Hf Hc Hs Ht Hb. unfold parse. destruct bs as [|b0 bs0] eqn:Ebs.
  { exists (new_state c). unfold adapted. destruct (t_restricted T); reflexivity. }
  rewrite <- Ebs in *. assert (adapted bs <> []) as Hne by (rewrite Ebs; unfold adapted; destruct (t_restricted T); discriminate).
  unfold parse_m. assert (is_empty (trim (sections (map source bs))) = false) as ->.
  { destruct (source_first b0) as (x & r & E & Hx); [apply Hb; rewrite Ebs; left; auto|]. eapply trim_sections; [|exact Hx]. rewrite Ebs. cbn [map]. rewrite E. reflexivity. }
  rewrite prepare_doc, Ht by auto. pose proof (adapted_fine bs Hb) as Hb'. set (ds := adapted bs) in *. clearbody ds. clear Ebs.
  destruct fuel as [|n]; [lia|]. 
  destruct (blocks_stage (S n) n ltac:(lia) ds (mk_bl [] [] false [] [] [] None [] false) (new_state c)) as (a & c1 & Hc1 & E1 & O1 & Y1); auto.
  { intros b Hx. destruct (Hb' b Hx) as (? & ? & ?). auto. }
  assert (block W T (graf W T (S n)) (sections (map source ds)) (new_state c) = Ret (sections (stages T 0 ds)) (all_kept ds (set_cache c1 (new_state c)))) as E2.
  { unfold block. unfold splitM. rewrite split_sections.
    - cbn [of_opt]. rewrite bind_ret. unfold graf. unfold bind. rewrite E1. rewrite Y1. change (is_empty (@nil N)) with true. cbv iota. rewrite O1. reflexivity.
    - destruct ds; [congruence|discriminate].
    - intros s Hx. apply in_map_iff in Hx. destruct Hx as (b & <- & Hx). apply source_firm. apply (Hb' b Hx). }
  rewrite all_kept_cache in E2. set (s1 := set_cache c1 (all_kept ds (new_state c))) in *.
  assert (place_note_lists T (sections (stages T 0 ds)) s1 = Ret (sections (stages T 0 ds)) s1) as E3.
  { unfold place_note_lists, modify, bind. cbn beta. assert (ps_notes s1 = []) as -> by (unfold s1; cbn [ps_notes set_cache]; rewrite all_kept_notes; reflexivity). cbv iota.
    apply no_match_replaceM. eapply never_ok; [apply stages_page; auto; intros b Hx; apply (Hb' b Hx)|apply page_notelist]. }
  assert (ps_shelf s1 = entries 0 ds) as E4 by (unfold s1; cbn [ps_shelf set_cache]; rewrite all_kept_shelf; [reflexivity|intros k []]).
  assert (ps_borrowed s1 = false) as E5 by (unfold s1; cbn [ps_borrowed set_cache]; rewrite (proj2 (all_kept_own ds (new_state c))); reflexivity).
  assert (contains (t_uid T) (sections (map (block_html br) ds)) = false) as E6.
  { apply sections_uid. intros x Hx. apply in_map_iff in Hx. destruct Hx as (b & <- & Hx). destruct (Hb' b Hx) as (? & ? & ?). apply shown_uid; auto. left. apply br_is. }
  destruct (tags_absent _ E6 s1 Hc1 E5) as (c2 & Hc2 & E7). destruct (urls_absent _ E6 (set_cache c2 s1) Hc2 E5) as (c3 & Hc3 & E8).
  exists (set_cache c3 (set_cache c2 s1)).
  unfold bind at 1. unfold bind at 1. rewrite E2, E3. unfold bind at 1. rewrite restore; auto; [|intros b Hx; destruct (Hb' b Hx) as (? & ? & ?); auto].
  rewrite replace_absent; [|pose proof (uid_ne _ uid_simple); destruct (t_uid T); [congruence|discriminate]|apply contains_more; auto].
  unfold bind at 1. rewrite E7. unfold bind at 1. rewrite E8. unfold ret. rewrite finish_doc; auto. intros b Hx. apply (Hb' b Hx).
Qed.
End Doc.

(** ** Deciding whether a text is accepted *)
Fixpoint runs (A : auto) (qs : list nat) (t : str) : bool :=
  match t with
  | [] => existsb (fun q => mem q (au_final A)) qs
  | c :: t' => runs A (flat_map (fun d => let '(q, cl, q') := d in if mem q qs && in_cls cl c then [q'] else []) (au_trans A)) t'
  end.
Lemma runs_sound A t : forall qs, runs A qs t = true -> exists q, In q qs /\ Suf A q t.
Proof.
  induction t as [|c t IH]; intros qs H; cbn [runs] in H.
  - apply existsb_exists in H. destruct H as (q & Hq & Hm). exists q. split; auto. apply SufNil. apply mem_in. auto.
  - destruct (IH _ H) as (q' & Hq' & S). apply in_flat_map in Hq'. destruct Hq' as (((q, cl), q2) & Hd & Hq'). destruct (mem q qs && in_cls cl c)%bool eqn:E; [|destruct Hq'].
    destruct Hq' as [<-|[]]. apply andb_prop in E. destruct E as [E1 E2]. exists q. split; [apply mem_in; auto|]. eapply SufCons; eauto.
Qed.
Lemma runs_accepts A t : runs A [au_start A] t = true -> accepts A t.
Proof. intros H. destruct (runs_sound A t _ H) as (q & [<-|[]] & S). exact S. Qed.

(** ** The theorems *)
Lemma token_free_iff T t : token_free T t -> contains (t_uid T) t = false.
Proof. intros H. destruct (contains (t_uid T) t) eqn:E; auto. apply contains_split in E. destruct E as (a & b & E). destruct (H a b E). Qed.
Lemma final_break T : final_br T = line_break T.
Proof. unfold final_br, line_break. destruct (t_html T); reflexivity. Qed.
Lemma documents W T fuel bs : ready T -> (1 < fuel)%nat -> (forall b, In b bs -> proper T b) ->
  exists s, parse W T fuel [] (sections (map source bs)) = Ret (sections (map (block_html (line_break T)) (seen_blocks T bs))) s.
Proof.
  intros (Hu & Ht & Hs) Hf Hb. rewrite <- final_break. apply parse_plain; auto; [apply cache_ok_nil|]. intros b H. destruct (Hb b H) as (H1 & H2 & H3). 
  split; auto. split; [apply token_free_iff; auto|exact H3].
Qed.
Lemma token_free_nil T : simple_uid (t_uid T) -> token_free T [].
Proof. intros H a b E. pose proof (uid_ne _ H). destruct a; [|discriminate]. destruct (t_uid T); [congruence|discriminate]. Qed.
Lemma paragraphs W T fuel ts : ready T -> (1 < fuel)%nat -> (forall t, In t ts -> accepts paragraph t) ->
  exists s, parse W T fuel [] (sections ts) = Ret (sections (map (fun t => element (u "p") (breaks (line_break T) t)) ts)) s.
Proof.
  intros Hr Hf Ht. destruct (documents W T fuel (map Para ts) Hr Hf) as (s & E).
  - intros b Hb. apply in_map_iff in Hb. destruct Hb as (t & <- & Hb). split; [apply Ht; auto|]. split; [apply token_free_nil, Hr|reflexivity].
  - exists s. rewrite map_map in E. cbn [source] in E. rewrite map_id in E. rewrite E. unfold seen_blocks. destruct (t_restricted T); rewrite ?map_map; reflexivity.
Qed.
Lemma headings W T fuel n t : ready T -> (1 < fuel)%nat -> t_lite T = false -> 1 <= n <= 6 -> accepts paragraph t ->
  exists s, parse W T fuel [] (heading_tag n ++ u ". " ++ t) = Ret (element (heading_tag n) (breaks (line_break T) t)) s.
Proof.
  intros Hr Hf Hl Hn Ht. destruct (documents W T fuel [Heading n t] Hr Hf) as (s & E).
  - intros b [<-|[]]. split; [split; auto|]. split; [apply token_free_nil, Hr|congruence].
  - exists s. cbn [map sections source] in E. rewrite E. unfold seen_blocks. destruct (t_restricted T); reflexivity.
Qed.
Lemma code_blocks W T fuel c : ready T -> (1 < fuel)%nat -> t_restricted T = false -> code_text c -> token_free T c ->
  exists s, parse W T fuel [] (u "bc. " ++ c) = Ret (u "<pre><code>" ++ entities true c ++ u "</code></pre>") s.
Proof.
  intros Hr Hf Hx Hc Ht. destruct (documents W T fuel [Code c] Hr Hf) as (s & E).
  - intros b [<-|[]]. split; auto. 
  - exists s. cbn [map sections source] in E. unfold seen_blocks in E. rewrite Hx in E. cbn [map sections block_html] in E. unfold element in E. rewrite <- ?app_assoc in E. exact E.
Qed.
Lemma pre_blocks W T fuel c : ready T -> (1 < fuel)%nat -> t_lite T = false -> t_restricted T = false -> code_text c -> token_free T c ->
  exists s, parse W T fuel [] (u "pre. " ++ c) = Ret (u "<pre>" ++ entities true c ++ u "</pre>") s.
Proof.
  intros Hr Hf Hl Hx Hc Ht. destruct (documents W T fuel [Pre c] Hr Hf) as (s & E).
  - intros b [<-|[]]. split; auto. split; auto. congruence.
  - exists s. cbn [map sections source] in E. unfold seen_blocks in E. rewrite Hx in E. cbn [map sections block_html] in E. unfold element in E. rewrite <- ?app_assoc in E. exact E.
Qed.
Lemma code_restricted W T fuel c : ready T -> (1 < fuel)%nat -> t_restricted T = true -> code_text c -> token_free T c ->
  exists s, parse W T fuel [] (u "bc. " ++ c) = Ret (u "<pre><code>" ++ entities true (entities false c) ++ u "</code></pre>") s.
Proof.
  intros Hr Hf Hx Hc Ht. destruct (documents W T fuel [Code c] Hr Hf) as (s & E).
  - intros b [<-|[]]. split; auto. 
  - exists s. cbn [map sections source] in E. unfold seen_blocks in E. rewrite Hx in E. cbn [map sections block_html restricted_block] in E. unfold element in E. rewrite <- ?app_assoc in E. exact E.
Qed.
Lemma raw_text W T fuel c : ready T -> (1 < fuel)%nat -> t_lite T = false -> t_restricted T = false -> code_text c -> no_br c -> token_free T c ->
  exists s, parse W T fuel [] (u "notextile. " ++ c) = Ret c s.
Proof.
  intros Hr Hf Hl Hx Hc Hb Ht. destruct (documents W T fuel [Raw c] Hr Hf) as (s & E).
  - intros b [<-|[]]. split; [split; auto|]. split; auto. congruence.
  - exists s. cbn [map sections source] in E. unfold seen_blocks in E. rewrite Hx in E. exact E.
Qed.
