(** The path of a block without a signature through [block]. *)
From Verif Require Import Str Unicode Regex RegexParse RegexSnips RegexTheory Lib ModelBase ModelHtml ModelUrl
  ModelAttrs ModelInline ModelParser SpecRegex ProofRegex ProofParse Logic ProofWalk.
#[local] Arguments u : simpl never.

Lemma bind_assoc {A B C} (m : M A) (f : A -> M B) (g : B -> M C) s : bind (bind m f) g s = bind m (fun a => bind (f a) g) s.
Proof. unfold bind. destruct (m s); reflexivity. Qed.
Lemma bind_ret {A B} (a : A) (k : A -> M B) s : bind (ret a) k s = k a s.
Proof. reflexivity. Qed.
Lemma bind_ext {A B} (m : M A) (f g : A -> M B) s : (forall a s1, f a s1 = g a s1) -> bind m f s = bind m g s.
Proof. intros H. unfold bind. destruct (m s); auto. Qed.
Lemma bind_eq {A B} (m m' : M A) (k : A -> M B) s : m s = m' s -> bind m k s = bind m' k s.
Proof. intros H. unfold bind. rewrite H. reflexivity. Qed.
Lemma no_match_replaceM r f text s : no_match r text -> replace_allM r f text s = Ret text s.
Proof.
  intros H. unfold replace_allM. rewrite (segs_no_match _ _ H). clear H.
  assert (forall t, mapM (replace_segM f) (map Lit t) s = Ret (map (fun c => [c]) t) s) as E.
  { induction t as [|c t IH]; [reflexivity|]. cbn [map mapM]. unfold bind. cbn [replace_segM]. unfold ret at 1. rewrite IH. reflexivity. }
  unfold bind. rewrite E. unfold ret. f_equal. induction text as [|c t IH]; [reflexivity|]. cbn [map List.concat app]. rewrite IH. reflexivity.
Qed.

Lemma find_from_none r : forall text before, find_from r before text = None -> forall w v, text = w ++ v -> match_at r (rev w ++ before) v = None.
Proof.
  induction text as [|c rest IH]; intros before H w v E; cbn [find_from] in H.
  - symmetry in E. apply app_eq_nil in E as [-> ->]. cbn [rev app]. destruct (match_at r before []); [discriminate|reflexivity].
  - destruct (match_at r before (c :: rest)) eqn:F; [discriminate|]. destruct w as [|c' w]; cbn [app] in E.
    + subst v. exact F.
    + inversion E; subst. cbn [rev]. rewrite <- app_assoc. apply (IH _ H w v eq_refl).
Qed.
Lemma no_match_of r text : is_match r text = false -> no_match r text.
Proof.
  unfold is_match, captures, find_first. intros H w v E. rewrite <- (app_nil_r (rev w)). eapply find_from_none; [|exact E].
  destruct (find_from r [] text) as [[[b h] a]|]; [discriminate|reflexivity].
Qed.

Lemma attrs_none el b c s : block_attributes_parse [] el b c s = Ret ba_default s.
Proof. destruct el, b, c; reflexivity. Qed.
Lemma block_new_p W T graf text s : no_match (rx_re NOTEDEF_RE) text -> text <> [] ->
  block_new W T graf (u "p") [] None text s = bind (graf text) (fun c => ret (mk_blk [] [] (u "<p>") (u "</p>") c false)) s.
Proof.
  intros H1 H2. unfold block_new. rewrite (bind_eq _ (ret ba_default)) by apply attrs_none. rewrite bind_ret.
  change (seqb (u "p") (u "p")) with true. cbv iota. rewrite bind_assoc.
  rewrite (bind_eq _ (ret text)) by (rewrite no_match_replaceM; auto). rewrite !bind_ret.
  destruct text as [|c t]; [congruence|]. change (is_empty (c :: t)) with false. cbv iota.
  rewrite (bind_eq _ (ret (u "p", ba_default, c :: t))) by reflexivity. rewrite bind_ret.
  rewrite (bind_eq _ (ret (mk_blk [] [] (u "<p>") (u "</p>") (c :: t) false))) by reflexivity. reflexivity.
Qed.
Definition wrapped (c : str) : str := if is_empty c || negb (has_raw_text c) then c else u "<p>" ++ c ++ u "</p>".
Lemma anon_step W T graf a text s : bl_ext a = [] -> is_empty (trim text) = false ->
  captures (rx_re (if t_lite T then TEXTILE_LIGHT_TAG_RE else TEXTILE_TAG_RE)) text = None ->
  is_match (rx_re DIVIDER_RE) text = false -> starts_with (u " ") text = false -> no_match (rx_re NOTEDEF_RE) text ->
  block_step W T graf a text s =
  bind (graf text) (fun c => bind (do_p_br T (wrapped c)) (fun o =>
    ret (mk_bl ((bl_ws a ++ replace_all (rx_re BR_TAG_RE) (fun _ => br_tag T) o) :: bl_out a) [] false [] (u "p") [] None [] false))) s.
Proof.
  intros H1 H2 H3 H4 H5 H6. unfold block_step. rewrite H2, H1, H3. change (is_empty (@nil N)) with true. cbv iota.
  assert (text <> []) as Hn by (intros ->; discriminate). 
  assert (forall s, anonymous_block W T graf [] (u "p") [] None (bl_closing a) false text s = bind (graf text) (fun c => ret (wrapped c, false, [])) s) as E.
  { intros s1. unfold anonymous_block. rewrite H4, H5. cbn [negb andb orb]. change (is_empty (@nil N)) with true. cbn [negb orb].
    rewrite (bind_eq _ _ _ _ (block_new_p W T graf text s1 H6 Hn)), bind_assoc. apply bind_ext. intros c s2. rewrite bind_ret.
    cbn [bk_content bk_inner_opening bk_inner_closing bk_eat bk_outer_closing]. change (seqb (u "p") (u "p")) with true. reflexivity. }
  rewrite bind_assoc. rewrite (bind_eq _ _ _ _ (E s)), bind_assoc. apply bind_ext. intros c s2. rewrite bind_ret. cbn [fst snd]. rewrite bind_ret. reflexivity.
Qed.
