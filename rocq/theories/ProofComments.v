(** Comments of one block leave no trace, whatever the other blocks are. *)
From Verif Require Import Str Unicode Regex RegexParse RegexSnips RegexTheory RegexAuto RegexGroups Lib ModelBase ModelHtml ModelUrl
  ModelAttrs ModelInline ModelParser SpecRegex ProofRegex ProofCharref SpecParse ProofParse Logic ProofWalk ProofState SpecState ProofMemory ProofCache ProofLinks ProofDoc
  SpecPlain ProofPlain SpecNewlines ProofNewlines ProofWeave ProofListText ProofParas ProofTags ProofSections ProofBlocks SpecDoc ProofDocument SpecAtts ProofItems ProofItemsTop SpecSigned ProofSigAtts
  ProofSigned ProofSigSheet ProofSignedDoc ProofSignedPage ProofSignedTop ProofSigDec SpecComments.
From Verif Require ProofGlyphs ProofSignedEnd.
#[local] Arguments u : simpl never.

(** ** Signatures with one dot *)
Lemma tag_dots (light : bool) x h : captures (rx_re (if light then TEXTILE_LIGHT_TAG_RE else TEXTILE_TAG_RE)) x = Some h -> no_dots x -> is_empty (cap_or 3 h) = true.
Proof.
  intros H Hn. apply captures_some in H as (w & v & s & -> & H & ->). apply match_at_sound in H.
  assert (exists a, Mat (RSeq (RAssert SOT) (RSeq (RGroup 1 a) (RSeq (RGroup 2 tag_atts) tag_rest))) (mk_mst (rev w) v []) s) as (names & M) by (destruct light; [rewrite light_shape in H|rewrite tag_shape in H]; eauto).
  clear H. apply mat_seq in M as (s0 & M0 & M). apply mat_seq in M as (s1 & M1 & M). apply mat_seq in M as (s2 & M2 & M).
  assert (exists p, v = p ++ m_after s2) as (p & ->).
  { apply Mat_moved in M0 as (w0 & [N0 _]). apply Mat_moved in M1 as (w1 & [N1 _]). apply Mat_moved in M2 as (w2 & [N2 _]). cbn [m_after] in N0. exists (w0 ++ w1 ++ w2). rewrite N0, N1, N2, <- !app_assoc. reflexivity. }
  clear M0 M1 M2. destruct s2 as [b2 a2 c2]. cbn [m_after] in *. unfold tag_rest in M.
  apply mat_seq in M as (s3 & M3 & M). apply mat_cls in M3 as (d & r & E & Hd & ->). cbn [m_after] in E. subst a2.
  apply mat_seq in M as (s4 & M4 & M). apply mat_group in M4 as (s5 & M5 & ->). cbn [step m_before m_after m_caps] in *.
  assert (m_caps s5 = c2 /\ (m_after s5 = r \/ exists r', r = 46 :: r' /\ m_after s5 = r')) as [C5 A5].
  { inversion M5; subst.
    - match goal with K : Mat (RCls _) _ _ |- _ => apply mat_cls in K as (d' & r' & E & Hd' & ->) end. cbn [m_after m_caps step] in *. split; [reflexivity|right]. exists r'. rewrite in_one in Hd'. apply N.eqb_eq in Hd'. subst. auto.
    - match goal with K : Mat REps _ _ |- _ => inversion K; subst end. auto. }
  rewrite in_one in Hd. apply N.eqb_eq in Hd. subst d.
  destruct A5 as [A5|(r' & -> & A5)]; [|exfalso; apply (Hn (w ++ p) r'); rewrite <- app_assoc; reflexivity].
  apply mat_seq in M as (s6 & M6 & M). apply mat_seq in M as (s7 & M7 & M). apply mat_seq in M as (s8 & M8 & M). apply mat_assert in M as [-> _].
  apply mat_group in M8 as (s9 & M9 & ->). apply mat_star_cls in M9 as (z & _ & _ & C9). apply mat_cls in M7 as (d & q & _ & _ & ->).
  assert (find_cap 3 (m_caps s6) = Some (r, m_after s5)) as F.
  { inversion M6; subst.
    - match goal with K : Mat (RSeq _ _) _ _ |- _ => apply mat_seq in K as (k1 & K1 & K2) end. apply mat_cls in K1 as (? & ? & _ & _ & ->). apply mat_group in K2 as (k2 & K2 & ->). apply ProofGlyphs.mat_no_group in K2; [|reflexivity].
      cbn [m_caps step find_cap Nat.eqb] in *. rewrite K2. reflexivity.
    - match goal with K : Mat REps _ _ |- _ => inversion K; subst end. reflexivity. }
  unfold cap_or, cap_opt, cap_text, mk_hit_of. cbn [h_caps m_caps find_cap Nat.eqb step] in *. rewrite C9, F. cbn [option_map fst snd]. rewrite A5. pose proof (cap_str_app [] r) as Q. cbn [app] in Q. change (is_empty (cap_str (r, r)) = true). rewrite Q. reflexivity.
Qed.

Section Comments.
Variables (W : world) (T : textile) (graf : str -> M str).
Notation step := (block_step W T graf).
Notation rr := (t_restricted T).

(** ** The comment *)
Definition ended (a : block_acc) : list str := if is_empty (bl_ext a) then bl_out a else push_last (bl_closing a) (bl_out a).
Lemma comment_any t a s : t_lite T = false ->
  step a (u "###. " ++ t) s = Ret (mk_bl (ended a) (bl_ws a) true [] (u "###") [] None [] true) s.
Proof.
  intros Hl. assert (In (u "###") (known_tag (t_lite T))) as Hs by (rewrite Hl; vm_compute; tauto).
  destruct (signed_captures rr (t_lite T) false (u "###") [] t Hs (no_items_ok ElNone rr) no_place (fun x H => match H with end) (closed_nil t)) as (h & Eh & C1 & C2 & C3 & C4 & C5).
  change (u "###" ++ items_text [] ++ 46 :: dots false ++ 32 :: t) with (u "###. " ++ t) in Eh.
  unfold block_step. change (u "###. " ++ t) with (u "###" ++ [46; 32] ++ t) at 1. rewrite (name_trim T _ _ Hs), Eh. unfold cap_or, cap_opt. rewrite C1, C2, C3, C4, C5.
  destruct (if is_empty (bl_ext a) then (u "p", [], None, false) else (bl_tag a, bl_atts a, bl_cite a, bl_eat a)) as [[[x1 x2] x3] x4].
  assert (block_new W T graf (u "###") (items_text []) None t s = Ret (mk_blk [] [] [] [] [] true) s) as E.
  { unfold block_new. rewrite (bind_eq _ _ _ _ (parse_sheet ElNone rr [] true s (ltac:(discriminate)) (no_items_ok ElNone rr))), bind_ret.
    change (seqb (u "###") (u "p")) with false. cbv iota. rewrite bind_ret.
    assert (block_footnote T (u "###") (items_text []) t (sheet ElNone rr true []) = ret (u "###", sheet ElNone rr true [], t)) as -> by reflexivity.
    rewrite bind_ret. reflexivity. }
  rewrite bind_assoc. unfold bind at 1. rewrite E. cbn [bk_eat bk_content bk_outer_opening bk_outer_closing bk_inner_opening bk_inner_closing]. rewrite bind_ret.
  reflexivity.
Qed.

(** ** States that differ in a closing tag that is not used *)
Definition with_closing (c : str) (a : block_acc) : block_acc :=
  mk_bl (bl_out a) (bl_ws a) (bl_eat_ws a) (bl_ext a) (bl_tag a) (bl_atts a) (bl_cite a) c (bl_eat a).
Definition alike (a b : block_acc) : Prop := a = b \/ (bl_ext a = [] /\ exists c, b = with_closing c a).
Definition alike_res (r r' : res block_acc) : Prop :=
  match r, r' with
  | Ret a s, Ret b s' => alike a b /\ s = s'
  | Panic p, Panic p' => p = p'
  | Diverge, Diverge => True
  | _, _ => False
  end.
Lemma alike_refl r : alike_res r r.
Proof. destruct r; cbn; auto. split; [left|]; reflexivity. Qed.
Lemma alike_bind {A} (m m' : M A) (k k' : A -> M block_acc) (P : A -> A -> Prop) s :
  match m s, m' s with Ret x t, Ret y t' => P x y /\ t = t' | Panic p, Panic p' => p = p' | Diverge, Diverge => True | _, _ => False end ->
  (forall x y t, P x y -> alike_res (k x t) (k' y t)) -> alike_res (bind m k s) (bind m' k' s).
Proof. intros H K. unfold bind. destruct (m s), (m' s); cbn in *; try tauto. destruct H as [H ->]. auto. Qed.
Definition first_two {A B C} (r r' : A * B * C) : Prop := fst r = fst r'.
Lemma anonymous_closing c c' tag atts cite eat text s :
  match anonymous_block W T graf [] tag atts cite c eat text s, anonymous_block W T graf [] tag atts cite c' eat text s with
  | Ret x t, Ret y t' => first_two x y /\ t = t' | Panic p, Panic p' => p = p' | Diverge, Diverge => True | _, _ => False end.
Proof.
  unfold anonymous_block, first_two. cbv zeta.
  repeat match goal with |- context [if ?x then _ else _] => destruct x end; unfold bind; repeat match goal with |- context [match ?m s with _ => _ end] => destruct (m s) end; cbn; auto.
Qed.
Lemma alike_step a b x s : alike a b -> alike_res (step a x s) (step b x s).
Proof.
  intros [->|(He & c & ->)]; [apply alike_refl|]. unfold block_step. cbn [bl_out bl_ws bl_eat_ws bl_ext bl_tag bl_atts bl_cite bl_closing bl_eat with_closing].
  destruct (is_empty (trim x)); [cbn; split; [right; split; [exact He|exists c; reflexivity]|reflexivity]|].
  rewrite He. cbn [is_empty]. destruct (captures _ x) as [h|] eqn:E; [apply alike_refl|].
  rewrite !bind_assoc. eapply alike_bind; [apply anonymous_closing|]. intros r r' t Hr. unfold first_two in Hr. rewrite !bind_ret, Hr.
  eapply (alike_bind _ _ _ _ eq).
  - destruct (do_p_br T (fst (fst r')) t); auto.
  - intros y y' t' <-. cbn. split; [|reflexivity]. right. split; [reflexivity|]. exists (snd r'). reflexivity.
Qed.
Lemma alike_fold xs : forall a b s, alike a b -> alike_res (foldM step a xs s) (foldM step b xs s).
Proof.
  induction xs as [|x xs IH]; intros a b s H; [cbn; auto|]. cbn [foldM]. eapply (alike_bind _ _ _ _ alike).
  - pose proof (alike_step a b x s H) as Q. unfold alike_res in Q. destruct (step a x s), (step b x s); auto.
  - intros a' b' t H'. apply IH. exact H'.
Qed.

(** ** The block after the comment *)
Definition tagged (x : str) : Prop := exists h, captures (rx_re (if t_lite T then TEXTILE_LIGHT_TAG_RE else TEXTILE_TAG_RE)) x = Some h.
Lemma after_comment a x s : is_empty (trim x) = false -> tagged x \/ bl_ext a = [] ->
  alike_res (step a x s) (step (mk_bl (ended a) (bl_ws a) true [] (u "###") [] None [] true) x s).
Proof.
  intros Hx H. unfold block_step. rewrite Hx. cbn [bl_out bl_ws bl_eat_ws bl_ext bl_tag bl_atts bl_cite bl_closing bl_eat is_empty].
  destruct (captures _ x) as [h|] eqn:E.
  - destruct (if is_empty (bl_ext a) then (u "p", [], None, false) else (bl_tag a, bl_atts a, bl_cite a, bl_eat a)) as [[[x1 x2] x3] x4]. apply alike_refl.
  - destruct H as [(h & F)|He]; [rewrite E in F; discriminate|]. unfold ended. rewrite He. cbn [is_empty].
    rewrite !bind_assoc. eapply alike_bind; [apply anonymous_closing|]. intros r r' t Hr. unfold first_two in Hr. rewrite !bind_ret, Hr.
    eapply (alike_bind _ _ _ _ eq).
    + destruct (do_p_br T (fst (fst r')) t); auto.
    + intros y y' t' <-. cbn. split; [|reflexivity]. right. split; [reflexivity|]. exists (snd r'). reflexivity.
Qed.
(** ** Without two dots nothing goes on *)
Lemma step_ext a x s a' s' : no_dots x -> bl_ext a = [] -> step a x s = Ret a' s' -> bl_ext a' = [].
Proof.
  intros Hd He. unfold block_step. destruct (is_empty (trim x)); [intros E; inversion E; subst; exact He|]. rewrite He. cbn [is_empty].
  destruct (captures _ x) as [h|] eqn:E.
  - apply tag_dots in E; [|exact Hd]. apply is_empty_nil in E. rewrite E. intros F. rewrite bind_assoc in F. unfold bind at 1 in F. destruct (block_new _ _ _ _ _ _ _ s) as [b t| |]; try discriminate. rewrite bind_ret in F.
    unfold bind in F. destruct (do_p_br _ _ t); try discriminate. inversion F; subst. reflexivity.
  - intros F. rewrite bind_assoc in F. unfold bind at 1 in F. destruct (anonymous_block _ _ _ _ _ _ _ _ _ _ s) as [b t| |]; try discriminate. rewrite bind_ret in F.
    unfold bind in F. destruct (do_p_br _ _ t); try discriminate. inversion F; subst. reflexivity.
Qed.
Lemma fold_ext xs : (forall x, In x xs -> no_dots x) -> forall a s a' s', bl_ext a = [] -> foldM step a xs s = Ret a' s' -> bl_ext a' = [].
Proof.
  intros H. induction xs as [|x xs IH]; intros a s a' s' He E; cbn [foldM] in E.
  - inversion E; subst. exact He.
  - unfold bind in E. destruct (step a x s) as [a1 s1| |] eqn:E1; try discriminate. eapply IH; [intros; apply H; right; auto| |exact E]. eapply step_ext; [apply H; left; reflexivity| |exact E1]. exact He.
Qed.
(** ** All blocks *)
Definition conclude (a : block_acc) : M str := ret (List.concat (rev (ended a))).
Lemma alike_conclude (m m' : M block_acc) s : alike_res (m s) (m' s) -> bind m conclude s = bind m' conclude s.
Proof.
  unfold bind, alike_res. destruct (m s), (m' s); cbn; try tauto; [|intros ->; reflexivity]. intros [[->|(He & c & ->)] ->]; [reflexivity|].
  unfold conclude, ended. cbn [bl_ext bl_out with_closing]. rewrite He. reflexivity.
Qed.
Lemma comment_pieces xs c ys s : t_lite T = false -> (forall y, In y ys -> is_empty (trim y) = false) -> xs ++ ys <> [] ->
  (match ys with [] => True | y :: _ => tagged y \/ forall x, In x xs -> no_dots x end) ->
  bind (foldM step (mk_bl [] [] false [] [] [] None [] false) (section_pieces (xs ++ [u "###. " ++ c] ++ ys))) conclude s =
  bind (foldM step (mk_bl [] [] false [] [] [] None [] false) (section_pieces (xs ++ ys))) conclude s.
Proof.
  intros Hl Hy Hn Hf. set (a0 := mk_bl [] [] false [] [] [] None [] false). set (co := u "###. " ++ c).
  assert (forall a s y ys', is_empty (trim y) = false -> tagged y \/ bl_ext a = [] ->
    alike_res (foldM step a (y :: trail ys') s) (foldM step a (co :: [10; 10] :: y :: trail ys') s)) as Go.
  { intros a s' y ys' Hy' Ha. cbn [foldM]. rewrite (bind_eq _ _ _ _ (comment_any c a s' Hl)), bind_ret. rewrite (bind_eq _ _ _ _ (blank_any W T graf _ s')), bind_ret. cbn [bl_out bl_ws bl_eat_ws bl_ext bl_tag bl_atts bl_cite bl_closing bl_eat].
    eapply (alike_bind _ _ _ _ alike); [pose proof (after_comment a y s' Hy' Ha) as Q; unfold alike_res in Q; destruct (step a y s'), (step _ y s'); auto|]. intros a' b' t H'. apply alike_fold. exact H'. }
  destruct xs as [|x xs]; [destruct ys as [|y ys]; [destruct (Hn eq_refl)|]|].
  - cbn [app] in *. fold co. rewrite !pieces_trail. cbn [trail flat_map app]. fold (trail ys). symmetry. apply alike_conclude. apply Go; [apply Hy; left; auto|]. right. reflexivity.
  - cbn [app]. fold co. rewrite !pieces_trail, !trail_app. destruct ys as [|y ys].
    + change (trail (co :: [])) with [[10; 10]; co]. cbn [trail flat_map]. rewrite app_nil_r. change (x :: trail xs ++ [[10; 10]; co]) with ((x :: trail xs) ++ [[10; 10]; co]).
      unfold bind. rewrite foldM_app. unfold bind at 1. destruct (foldM step a0 (x :: trail xs) s) as [a t| |]; try reflexivity. cbn [foldM].
      rewrite (bind_eq _ _ _ _ (blank_any W T graf _ t)), bind_ret. unfold co. rewrite (bind_eq _ _ _ _ (comment_any c _ t Hl)), bind_ret. reflexivity.
    + change (trail (co :: y :: ys)) with ([[10; 10]] ++ co :: [10; 10] :: y :: trail ys). change (trail (y :: ys)) with ([[10; 10]] ++ y :: trail ys).
      set (q := (x :: trail xs) ++ [[10; 10]]).
      assert (forall l : list str, x :: trail xs ++ [[10; 10]] ++ l = q ++ l) as Eq by (intros l; unfold q; rewrite <- app_assoc; reflexivity). rewrite !Eq. clear Eq.
      symmetry. apply alike_conclude. rewrite !foldM_app. unfold bind. destruct (foldM step a0 q s) as [a t| |] eqn:E; [|apply alike_refl|apply alike_refl].
      apply Go; [apply Hy; left; auto|]. destruct Hf as [Hf|Hf]; [left; exact Hf|right]. apply (fold_ext q) with (a := a0) (s := s) (s' := t); [|reflexivity|exact E]. unfold q. intros z Hz. apply in_app_or in Hz as [[<-|Hz]|[<-|[]]].
      * apply Hf. left. reflexivity.
      * apply in_flat_map in Hz as (v & Hv & [<-|[<-|[]]]); [|apply Hf; right; exact Hv]. intros l r F. assert (In 46 [10; 10]) as K by (rewrite F; apply in_or_app; right; left; reflexivity). destruct K as [K|[K|[]]]; discriminate.
      * intros l r F. assert (In 46 [10; 10]) as K by (rewrite F; apply in_or_app; right; left; reflexivity). destruct K as [K|[K|[]]]; discriminate.
Qed.
Lemma comment_block xs c ys s : t_lite T = false -> (forall x, In x (xs ++ [u "###. " ++ c] ++ ys) -> firm x) -> (forall y, In y ys -> is_empty (trim y) = false) -> xs ++ ys <> [] ->
  (match ys with [] => True | y :: _ => tagged y \/ forall x, In x xs -> no_dots x end) ->
  block W T graf (sections (xs ++ [u "###. " ++ c] ++ ys)) s = block W T graf (sections (xs ++ ys)) s.
Proof.
  intros Hl Hfi Hy Hn Hf. unfold block, splitM. rewrite !split_sections; [|exact Hn|intros z Hz; apply Hfi; apply in_app_or in Hz as [Hz|Hz]; apply in_or_app; [left|right; right]; exact Hz|destruct xs; discriminate|exact Hfi].
  cbn [of_opt]. rewrite !bind_ret. exact (comment_pieces xs c ys s Hl Hy Hn Hf).
Qed.
End Comments.

(** ** The document *)
Section Document.
Variables (W : world) (T : textile).
Hypothesis uid_simple : simple_uid (t_uid T).
Notation rr := (t_restricted T).

Lemma prepare_blocks l : (forall x, In x l -> code_text x /\ token_free T x) -> prepare T (sections l) = sections (map (seen_text T) l).
Proof.
  intros H. assert (forall x, In x (map (seen_text T) l) -> firm x /\ uid_free T x) as F.
  { intros x Hx. apply in_map_iff in Hx as (y & <- & Hy). destruct (H y Hy) as [H1 H2]. split; [exact (seen_code T y H1)|exact (seen_free T uid_simple y H2)]. }
  unfold prepare. assert ((if rr then encode_html (sections l) false false else sections l) = sections (map (seen_text T) l)) as ->.
  { unfold seen_text. destruct rr; [|rewrite map_id; reflexivity]. fold (esc (sections l)). rewrite esc_sections. f_equal. apply map_ext. intros x. apply esc_entities. }
  rewrite normalize_tidy, tidy_sections by (intros x Hx; apply F; exact Hx). apply replace_absent; [apply uid_ne; auto|]. apply sections_uid; auto. intros x Hx. apply F. exact Hx.
Qed.
Lemma visible_trim x : (exists c, In c x /\ is_ws c = false) -> is_empty (trim x) = false.
Proof.
  intros (c & Hc & Hw). destruct (is_empty _) eqn:E; auto. apply is_empty_nil in E. unfold trim in E. apply trim_by_nil in E. rewrite forallb_forall in E. rewrite (E c Hc) in Hw. discriminate.
Qed.
Lemma visible_sections l x : In x l -> (exists c, In c x /\ is_ws c = false) -> is_empty (trim (sections l)) = false.
Proof.
  intros Hx (c & Hc & Hw). apply visible_trim. exists c. split; auto. clear Hw. induction l as [|y l IH]; [destruct Hx|]. destruct l as [|z l].
  - destruct Hx as [->|[]]. exact Hc.
  - rewrite sections_cons by discriminate. apply in_or_app. destruct Hx as [->|Hx]; [left; exact Hc|right]. right. right. apply IH. exact Hx.
Qed.
Lemma dots_seen x : no_dots x -> no_dots (seen_text T x).
Proof.
  unfold seen_text. destruct rr; auto. rewrite <- esc_entities. intros H a b E. revert x H a E. induction x as [|c x IH]; intros H a E; [destruct a; discriminate|].
  rewrite esc_cons in E. assert (no_dots x) as Hx by (intros a' b' E'; apply (H (c :: a') b'); rewrite E'; reflexivity).
  assert (encode_char false false c = [c] \/ (~ In 46 (encode_char false false c))) as [Ec|Ec].
  { unfold encode_char. cbn [andb]. repeat match goal with |- context [if ?y then _ else _] => destruct y end; [right|right|right|left; reflexivity]; vm_compute; intuition discriminate. }
  - rewrite Ec in E. destruct a as [|a0 a]; [|injection E as _ E; exact (IH Hx a E)]. change ([c] ++ esc x = [46; 46] ++ b) in E. injection E as -> E. destruct x as [|d x]; [discriminate|].
    rewrite esc_cons in E. assert (encode_char false false d = [d] \/ exists k, encode_char false false d = 38 :: k) as [Ed|(k & Ed)].
    { unfold encode_char. cbn [andb]. repeat match goal with |- context [if ?y then _ else _] => destruct y end; [right|right|right|left; reflexivity]; eexists; reflexivity. }
    + rewrite Ed in E. injection E as -> _. apply (H [] x). reflexivity.
    + rewrite Ed in E. discriminate.
  - apply app_eq_app in E as (k & [[E1 E2]|[E1 E2]]).
    + destruct k as [|k0 k]; [apply (IH Hx []); symmetry; exact E2|]. change ([46; 46] ++ b = (k0 :: k) ++ esc x) in E2. injection E2 as <- _. apply Ec. rewrite E1. apply in_or_app. right. left. reflexivity.
    + exact (IH Hx k E2).
Qed.
Lemma signed_tagged y : t_lite T = false -> starts_signed T y -> tagged T (seen_text T y).
Proof.
  intros Hl (g & l & t & Hg & Hc & Hy). assert (exists ext, y = starting ext g l t) as (ext & ->) by (destruct Hy as [->| ->]; [exists false|exists true]; reflexivity).
  assert (exists t', seen_text T (starting ext g l t) = starting ext g l t' /\ closed l t') as (t' & -> & Hc').
  { unfold seen_text. destruct rr eqn:Er; [|eauto]. rewrite <- esc_entities, (esc_starting T) by auto. exists (esc t). split; [reflexivity|].
    pose proof (seen_closed T l SigBc t Hc) as Q. unfold seen_in, seen_text in Q. cbn [is_text] in Q. rewrite Er, <- esc_entities in Q. exact Q. }
  unfold tagged. rewrite Hl. destruct Hg as (G1 & G2 & G3 & G4 & _).
  assert (In (sig_name g) (known_tag false)) as Hk.
  { unfold known_tag. destruct g as [|n| | | | ]; try (vm_compute; tauto). assert (n = 1 \/ n = 2 \/ n = 3 \/ n = 4 \/ n = 5 \/ n = 6) as Hn by lia. destruct Hn as [->|[->|[->|[->|[->| ->]]]]]; vm_compute; tauto. }
  destruct (signed_captures rr false ext (sig_name g) l t' Hk G2 G3 G4 Hc') as (h & Eh & _). exists h. destruct ext; exact Eh.
Qed.
Lemma comment_parse fuel c0 xs c ys : t_block_tags T = true -> t_lite T = false -> (forall x, In x (xs ++ ys) -> any_block T x) -> xs ++ ys <> [] -> code_text c -> token_free T c -> may_follow T xs ys ->
  parse W T fuel c0 (sections (xs ++ [u "###. " ++ c] ++ ys)) = parse W T fuel c0 (sections (xs ++ ys)).
Proof.
  intros Hb Hl Ha Hn Hc Hf Hm. unfold parse, parse_m.
  assert (exists z, In z (xs ++ ys)) as (z & Hz) by (destruct (xs ++ ys) as [|z l]; [congruence|exists z; left; reflexivity]).
  destruct (Ha z Hz) as (_ & _ & Hv).
  rewrite (visible_sections (xs ++ ys) z Hz Hv), (visible_sections (xs ++ [u "###. " ++ c] ++ ys) z) by first [exact Hv|apply in_app_or in Hz as [Hz|Hz]; apply in_or_app; [left|right; right]; exact Hz].
  assert (token_free T (u "###. " ++ c)) as Hf'.
  { apply free_dec. apply token_free_iff in Hf. change (u "###. " ++ c) with (u "###." ++ 32 :: c). rewrite contains_cut by (try apply uid_ne; auto; apply uid_without; auto).
    rewrite Hf, orb_false_r. apply ProofSignedEnd.uid_no_colon; auto. vm_compute; intuition discriminate. }
  rewrite !prepare_blocks.
  - rewrite Hb. rewrite !map_app. cbn [map]. assert (seen_text T (u "###. " ++ c) = u "###. " ++ seen_text T c) as -> by (unfold seen_text; destruct rr; [rewrite <- !esc_entities, esc_app|]; reflexivity).
    assert (forall k : str -> M str, bind (bind (block W T (graf W T fuel) (sections (map (seen_text T) xs ++ [u "###. " ++ seen_text T c] ++ map (seen_text T) ys))) (fun t => place_note_lists T t)) k (new_state c0) =
      bind (bind (block W T (graf W T fuel) (sections (map (seen_text T) xs ++ map (seen_text T) ys))) (fun t => place_note_lists T t)) k (new_state c0)) as E; [|apply E].
    intros k. unfold bind. rewrite comment_block; auto.
    + intros x Hx. apply in_app_or in Hx as [Hx|[<-|Hx]].
      * apply in_map_iff in Hx as (y & <- & Hy). apply (seen_code T y). apply Ha. apply in_or_app. auto.
      * apply comment_firm, seen_code; auto.
      * apply in_map_iff in Hx as (y & <- & Hy). apply (seen_code T y). apply Ha. apply in_or_app. auto.
    + intros x Hx. apply in_map_iff in Hx as (y & <- & Hy). apply visible_trim, seen_visible. apply Ha. apply in_or_app. auto.
    + rewrite <- map_app. intros E. apply map_eq_nil in E. auto.
    + unfold may_follow in Hm. destruct ys as [|y ys]; [exact I|]. cbn [map]. destruct Hm as [Hm|Hm]; [left; apply signed_tagged; auto|right]. intros x Hx. apply in_map_iff in Hx as (v & <- & Hv'). apply dots_seen. auto.
  - intros x Hx. destruct (Ha x Hx) as (A1 & A2 & _). auto.
  - intros x Hx. apply in_app_or in Hx as [Hx|[<-|Hx]].
    + destruct (Ha x) as (A1 & A2 & _); [apply in_or_app; auto|auto].
    + split; [apply comment_firm; auto|auto].
    + destruct (Ha x) as (A1 & A2 & _); [apply in_or_app; auto|auto].
Qed.
End Document.
Lemma comment_left_out W T fuel c0 xs c ys : simple_uid (t_uid T) -> t_block_tags T = true -> t_lite T = false ->
  (forall x, In x (xs ++ ys) -> any_block T x) -> xs ++ ys <> [] -> code_text c -> token_free T c -> may_follow T xs ys ->
  parse W T fuel c0 (sections (xs ++ [u "###. " ++ c] ++ ys)) = parse W T fuel c0 (sections (xs ++ ys)).
Proof. intros. apply comment_parse; auto. Qed.
(** ** The conditions, decidably *)
Lemma visible_dec x : existsb (fun c => negb (is_ws c)) x = true -> exists c, In c x /\ is_ws c = false.
Proof. intros H. apply existsb_exists in H as (c & Hc & H). exists c. split; auto. destruct (is_ws c); [discriminate|reflexivity]. Qed.
Lemma no_dots_dec x : contains (u "..") x = false -> no_dots x.
Proof. intros H a b E. rewrite E, contains_mid in H. discriminate. Qed.
