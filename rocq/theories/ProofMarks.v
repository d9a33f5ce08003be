(** Fragments between two marks: the steps of the parser find exactly those of [SpecMarks]. *)
From Verif Require Import Str Unicode Regex RegexParse RegexSnips RegexTheory RegexAuto RegexGroups Lib ModelBase ModelHtml ModelUrl
  ModelAttrs ModelInline ModelParser SpecRegex ProofRegex ProofCharref SpecParse ProofParse Logic ProofWalk ProofState SpecState ProofMemory ProofCache ProofLinks ProofDoc
  SpecPlain ProofPlain SpecNewlines ProofNewlines ProofParas ProofTags ProofSections ProofBlocks SpecDoc ProofDocument SpecText ProofText ProofWeave SpecSigned ProofSigned ProofSignedDoc ProofSignedPage ProofSpecial SpecMarks.
#[local] Arguments u : simpl never.
Lemma special_comment : rx_re SPECIAL_COMMENT = special (u "<!--") (u "-->"). Proof. reflexivity. Qed.
(** A lazy loop takes the first place at which the rest matches. *)
Fixpoint first_place (k : mst -> option mst) (before t : str) (cs : caps) : option mst :=
  match k (mk_mst before t cs) with Some x => Some x | None => match t with [] => None | c :: t' => first_place k (c :: before) t' cs end end.
Lemma lazy_first k cs : forall t before, m (RStar false (RCls any_cls)) (mk_mst before t cs) k = first_place k before t cs.
Proof.
  assert (forall f t before, (List.length t <= List.length f)%nat -> star_loop false (RCls any_cls) k f (mk_mst before t cs) = first_place k before t cs) as Q.
  { induction f as [|z f IH]; intros t before H.
    - destruct t; [|cbn in H; lia]. cbn [first_place star_loop]. destruct (k _); reflexivity.
    - rewrite star_loop_cons. destruct t as [|c t]; cbn [first_place]; destruct (k _); try reflexivity. rewrite m_cls, any_in. apply IH. cbn in H. lia. }
  intros t before. rewrite m_star. apply Q. cbn [m_after]. lia.
Qed.
Lemma closing_bracket d : in_cls close_cls d = existsb (N.eqb d) (u "])}").
Proof.
  unfold in_cls, close_cls. cbn [c_neg c_items existsb in_item]. change (u "])}") with [93; 41; 125]. cbn [existsb].
  assert (forall k, (k <=? d) && (d <=? k) = (d =? k)) as E by (intros k; destruct (N.leb_spec k d), (N.leb_spec d k), (N.eqb_spec d k); cbn; try reflexivity; lia).
  rewrite !E. destruct (d =? 93), (d =? 41), (d =? 125); reflexivity.
Qed.
Lemma preceding d : in_cls ws_cls d || in_cls lead_cls d = may_precede d.
Proof.
  unfold in_cls, ws_cls, lead_cls, may_precede. cbn [c_neg c_items existsb in_item]. change (u "[({>|") with [91; 40; 123; 62; 124]. cbn [existsb].
  assert (forall k, (k <=? d) && (d <=? k) = (d =? k)) as E by (intros k; destruct (N.leb_spec k d), (N.leb_spec d k), (N.eqb_spec d k); cbn; try reflexivity; lia).
  rewrite !E. change (has_prop PSpace d) with (is_ws d). destruct (is_ws d), (d =? 91), (d =? 40), (d =? 123), (d =? 62), (d =? 124); reflexivity.
Qed.
(** The bracket after a fragment. *)
Lemma tail_is before r cs : exists cs', m tail_re (mk_mst before r cs) Some = Some (mk_mst (rev (bracket_after r) ++ before) (skipn (List.length (bracket_after r)) r) cs') /\
  ((cs' = cs /\ bracket_after r = []) \/ cs' = (3%nat, (r, skipn (List.length (bracket_after r)) r)) :: cs).
Proof.
  unfold tail_re. rewrite m_alt, m_group, m_alt, m_assert. destruct r as [|d r].
  - cbn [assert_holds]. eexists. split; [reflexivity|]. right. reflexivity.
  - cbn [assert_holds m_before m_after m_caps bracket_after]. rewrite m_cls, closing_bracket, m_eps. destruct (N.eqb_spec d 10) as [->|Hd].
    + change (existsb (N.eqb 10) (u "])}")) with false. eexists. split; [reflexivity|]. right. reflexivity.
    + destruct (existsb (N.eqb d) (u "])}")) eqn:E; cbn [m_before m_after m_caps].
      * eexists. split; [reflexivity|]. right. reflexivity.
      * eexists. split; [reflexivity|]. left. split; reflexivity.
Qed.
Section Special.
Variables st en : str.
Hypothesis st_ne : st <> [].
Hypothesis en_ne : en <> [].
Lemma up_to_split : forall t c r, up_to en t = Some (c, r) -> t = c ++ en ++ r.
Proof.
  induction t as [|x t IH]; intros c r H; cbn [up_to] in H.
  - destruct en; [congruence|]. discriminate.
  - destruct (starts_with en (x :: t)) eqn:E.
    + destruct (starts_split _ _ E) as (z & Ez). rewrite Ez in H |- *. rewrite skipn_app, skipn_all, Nat.sub_diag in H. cbn [app skipn] in H. injection H as <- <-. reflexivity.
    + destruct (up_to en t) as [[c0 r0]|] eqn:F; [|discriminate]. cbn [option_map fst snd] in H. injection H as <- <-. cbn [app]. f_equal. apply IH. exact eq_refl.
Qed.
Lemma inside_is cs0 all : forall t before, 
  first_place (fun s' => m (ProofParas.lit_re en tail_re) (mk_mst (m_before s') (m_after s') ((2%nat, (all, m_after s')) :: m_caps s')) Some) before t cs0 =
  match up_to en t with Some (c, r) => m tail_re (mk_mst (rev en ++ rev c ++ before) r ((2%nat, (all, en ++ r)) :: cs0)) Some | None => None end.
Proof.
  induction t as [|x t IH]; intros before; cbn [first_place up_to m_before m_after m_caps].
  - rewrite lit_miss by (destruct en; [congruence|reflexivity]). destruct en; [congruence|reflexivity].
  - destruct (starts_with en (x :: t)) eqn:E.
    + destruct (starts_split _ _ E) as (z & Ez). rewrite Ez, m_lit_re. rewrite skipn_app, skipn_all, Nat.sub_diag. cbn [app skipn rev].
      destruct (tail_is (rev en ++ before) z ((2%nat, (all, en ++ z)) :: cs0)) as (cs' & F & _). unfold str in *. rewrite F. reflexivity.
    + rewrite lit_miss by exact E. rewrite IH. destruct (up_to en t) as [[c r]|]; cbn [option_map fst snd]; [|reflexivity]. cbn [rev]. rewrite <- !app_assoc. reflexivity.
Qed.
(** What a match holds. *)
Record found (all b c a r : str) (s : mst) : Prop := mk_found {
  fd_text : all = b ++ st ++ c ++ en ++ a ++ r;
  fd_after : m_after s = r;
  fd_1 : cap_text 1 (m_caps s) = Some b;
  fd_2 : cap_text 2 (m_caps s) = Some c;
  fd_3 : match cap_text 3 (m_caps s) with Some x => x | None => [] end = a }.
Notation body := (ProofParas.lit_re st (RSeq (RGroup 2 (RStar false (RCls any_cls))) (ProofParas.lit_re en tail_re))).
Lemma bracket_split r : r = bracket_after r ++ skipn (List.length (bracket_after r)) r.
Proof. destruct r as [|d r]; [reflexivity|]. cbn [bracket_after]. destruct (existsb _ _); reflexivity. Qed.
Lemma body_is b t before : 
  match fragment_at st en t with
  | Some (c, a, r) => exists s, m body (mk_mst before t [(1%nat, (b ++ t, t))]) Some = Some s /\ found (b ++ t) b c a r s
  | None => m body (mk_mst before t [(1%nat, (b ++ t, t))]) Some = None
  end.
Proof.
  unfold fragment_at. destruct (starts_with st t) eqn:E; [|apply lit_miss; exact E].
  destruct (starts_split _ _ E) as (z & ->). rewrite skipn_app, skipn_all, Nat.sub_diag. cbn [app skipn]. rewrite m_lit_re, m_seq, m_group, lazy_first, inside_is.
  destruct (up_to en z) as [[c r]|] eqn:F; [|reflexivity]. apply up_to_split in F. subst z.
  match goal with |- context [m tail_re (mk_mst ?x r ?y) Some] => destruct (tail_is x r y) as (cs' & G & Hcs) end. unfold str in *. rewrite G. eexists. split; [reflexivity|].
  assert (find_cap 1 cs' = Some (b ++ st ++ c ++ en ++ r, st ++ c ++ en ++ r) /\ find_cap 2 cs' = Some (c ++ en ++ r, en ++ r) /\
          ((find_cap 3 cs' = None /\ bracket_after r = []) \/ find_cap 3 cs' = Some (r, skipn (List.length (bracket_after r)) r))) as (C1 & C2 & C3).
  { destruct Hcs as [[-> Hb] | ->]; cbn [find_cap Nat.eqb]; (split; [reflexivity|]); (split; [reflexivity|]); [left; split; [reflexivity|exact Hb]|right; reflexivity]. }
  split; unfold cap_text; cbn [m_after m_caps].
  - rewrite (bracket_split r) at 1. reflexivity.
  - reflexivity.
  - unfold str in *. rewrite C1. cbn [option_map]. f_equal. apply cap_between.
  - unfold str in *. rewrite C2. cbn [option_map]. f_equal. apply cap_between.
  - destruct C3 as [[C3 Hb] | C3]; unfold str in *; rewrite C3; cbn [option_map]; [rewrite Hb; reflexivity|].
    pose proof (cap_between (bracket_after r) (skipn (List.length (bracket_after r)) r)) as Q. rewrite <- bracket_split in Q. exact Q.
Qed.
Lemma special_at_nil before : match_at (special st en) before [] = None.
Proof. apply special_miss; [destruct st; [congruence|reflexivity]|intros; discriminate]. Qed.
Lemma special_is before d t' (start : bool) : start = assert_holds SOL before (d :: t') ->
  match (if start then fragment_at st en (d :: t') else None) with
  | Some (c, a, r) => exists s, match_at (special st en) before (d :: t') = Some s /\ found (d :: t') [] c a r s
  | None =>
      match (if may_precede d then fragment_at st en t' else None) with
      | Some (c, a, r) => exists s, match_at (special st en) before (d :: t') = Some s /\ found (d :: t') [d] c a r s
      | None => match_at (special st en) before (d :: t') = None
      end
  end.
Proof.
  intros ->. unfold match_at, special. rewrite m_seq, m_group, m_alt, m_assert. cbn [m_before m_after m_caps].
  pose proof (body_is [] (d :: t') before) as B1. pose proof (body_is [d] t' (d :: before)) as B2. cbn [app] in B1, B2.
  rewrite m_alt, !m_cls. cbn [m_before m_after m_caps]. rewrite <- preceding. unfold str in *.
  destruct (assert_holds SOL before (d :: t')).
  - destruct (fragment_at st en (d :: t')) as [[[c a] r]|].
    + destruct B1 as (s & E & F). rewrite E. exists s. split; [reflexivity|exact F].
    + rewrite B1. destruct (in_cls ws_cls d) eqn:Ew, (in_cls lead_cls d) eqn:El; cbn [orb]; try reflexivity; destruct (fragment_at st en t') as [[[c a] r]|]; try (rewrite B2; reflexivity).
      all: destruct B2 as (s & E & F); rewrite E; exists s; split; [reflexivity|exact F].
  - destruct (in_cls ws_cls d) eqn:Ew, (in_cls lead_cls d) eqn:El; cbn [orb]; try reflexivity; destruct (fragment_at st en t') as [[[c a] r]|]; try (rewrite B2; reflexivity).
    all: destruct B2 as (s & E & F); rewrite E; exists s; split; [reflexivity|exact F].
Qed.
Hypothesis en_end : exists w x, en = w ++ [x] /\ x <> 10.
Lemma after_fragment_line before b c r : assert_holds SOL (rev (b ++ st ++ c ++ en ++ bracket_after r) ++ before) [] = false.
Proof.
  destruct en_end as (w & x & -> & Hx). assert (exists v y, b ++ st ++ c ++ (w ++ [x]) ++ bracket_after r = v ++ [y] /\ y <> 10) as (v & y & -> & Hy).
  { destruct r as [|d r]; cbn [bracket_after]; [exists (b ++ st ++ c ++ w), x; split; [rewrite app_nil_r, <- !app_assoc; reflexivity|exact Hx]|].
    destruct (existsb (N.eqb d) (u "])}")) eqn:E; [|exists (b ++ st ++ c ++ w), x; split; [rewrite app_nil_r, <- !app_assoc; reflexivity|exact Hx]].
    exists (b ++ st ++ c ++ w ++ [x]), d. split; [rewrite <- !app_assoc; reflexivity|]. intros ->. discriminate. }
  rewrite rev_app_distr. cbn [rev app assert_holds]. apply N.eqb_neq. exact Hy.
Qed.
Section Replace.
Variables (T : textile) (stored : str -> str) (form : str -> str -> str -> str) (f : hit -> M str).
Hypothesis f_ok : forall h b c a s, cap_text 1 (h_caps h) = Some b -> cap_text 2 (h_caps h) = Some c -> match cap_text 3 (h_caps h) with Some x => x | None => [] end = a ->
  f h s = Ret (form b a (fragment_token T (ps_ref_index s + 1))) (set_aside T [stored c] s).
Lemma fragment_bracket t c a r : fragment_at st en t = Some (c, a, r) -> exists r0, a = bracket_after r0 /\ r = skipn (List.length (bracket_after r0)) r0 /\ t = st ++ c ++ en ++ r0.
Proof.
  unfold fragment_at. destruct (starts_with st t) eqn:E; [|discriminate]. destruct (starts_split _ _ E) as (z & ->). rewrite skipn_app, skipn_all, Nat.sub_diag. cbn [app skipn].
  destruct (up_to en z) as [[c0 r0]|] eqn:F; [|discriminate]. apply up_to_split in F. intros H. injection H as <- <- <-. exists r0. subst z. auto.
Qed.
Lemma found_scan before last all b c a r s : found all b c a r s -> match_at (special st en) before all = Some s -> all <> [] ->
  scan (special st en) before all O last = Hit (mk_hit_of all s) :: scan (special st en) (rev (b ++ st ++ c ++ en ++ a) ++ before) r O true.
Proof.
  intros [H1 H2 _ _ _] M Hn. destruct all as [|x y]; [congruence|]. rewrite scan_cons, M. assert (h_text (mk_hit_of (x :: y) s) = b ++ st ++ c ++ en ++ a) as Eh.
  { unfold mk_hit_of. cbn [h_text]. rewrite H1, H2. assert (b ++ st ++ c ++ en ++ a ++ r = (b ++ st ++ c ++ en ++ a) ++ r) as -> by (rewrite <- !app_assoc; reflexivity). apply cap_between. }
  rewrite Eh, H2. destruct (b ++ st ++ c ++ en ++ a) eqn:F; [|reflexivity]. exfalso. destruct b; [|discriminate]. destruct st; [congruence|discriminate].
Qed.
Lemma found_then l all b c a r s0 ps y ps' : found all b c a r s0 ->
  outcome_is (mapM (replace_segM f) l (set_aside T [stored c] ps)) y ps' ->
  outcome_is (mapM (replace_segM f) (Hit (mk_hit_of all s0) :: l) ps) (form b a (fragment_token T (ps_ref_index ps + 1)) ++ y) ps'.
Proof.
  intros [H1 H2 H3 H4 H5] (x & E & <-). cbn [mapM replace_segM]. unfold bind at 1. rewrite (f_ok _ b c a); auto. unfold bind. rewrite E. eexists. split; reflexivity.
Qed.
Lemma parts_replaced n : forall t before last start ps, (List.length t <= n)%nat -> start = assert_holds SOL before [] ->
  outcome_is (mapM (replace_segM f) (scan (special st en) before t O last) ps) (shown T form (ps_ref_index ps) (parts_of st en n start t)) (set_aside T (map stored (contents (parts_of st en n start t))) ps).
Proof.
  induction n as [|n IH]; intros t before last start ps Hn Hs.
  { destruct t; [|cbn in Hn; lia]. rewrite scan_nil, special_at_nil. exists []. destruct last; split; reflexivity. }
  destruct t as [|d t].
  { rewrite scan_nil, special_at_nil. exists []. destruct last; split; reflexivity. }
  pose proof (special_is before d t start) as Q. rewrite Hs in Q. specialize (Q eq_refl). rewrite <- Hs in Q. cbn [parts_of].
  assert (forall b c a r s0, b = [] \/ b = [d] -> (exists r0, a = bracket_after r0 /\ r = skipn (List.length (bracket_after r0)) r0) -> (List.length r <= n)%nat ->
    match_at (special st en) before (d :: t) = Some s0 -> found (d :: t) b c a r s0 ->
    outcome_is (mapM (replace_segM f) (scan (special st en) before (d :: t) 0 last) ps) (shown T form (ps_ref_index ps) (Marked b c a :: parts_of st en n false r)) (set_aside T (map stored (contents (Marked b c a :: parts_of st en n false r))) ps)) as G.
  { intros b c a r s0 Hb (r0 & Ea & Er) Hl M F. rewrite (found_scan before last (d :: t) b c a r s0 F M ltac:(discriminate)). cbn [shown contents flat_map app map]. fold (contents (parts_of st en n false r)).
    change (set_aside T (stored c :: ?l) ps) with (set_aside T l (set_aside T [stored c] ps)). eapply found_then; [exact F|]. 
    change (ps_ref_index ps + 1) with (ps_ref_index (set_aside T [stored c] ps)). apply IH; [exact Hl|]. subst a. symmetry. apply after_fragment_line. }
  destruct (if start then fragment_at st en (d :: t) else None) as [[[c a] r]|] eqn:E1.
  - destruct start; [|discriminate]. destruct Q as (s0 & M & F). destruct (fragment_bracket _ _ _ _ E1) as (r0 & -> & -> & Et). apply (G [] c _ _ s0); auto; [exists r0; auto|].
    apply (f_equal (@List.length N)) in Et. rewrite !app_length in Et. rewrite skipn_length. destruct st; [congruence|]. cbn [List.length] in *. lia.
  - destruct (if may_precede d then fragment_at st en t else None) as [[[c a] r]|] eqn:E2.
    + destruct (may_precede d); [|discriminate]. destruct Q as (s0 & M & F). destruct (fragment_bracket _ _ _ _ E2) as (r0 & -> & -> & Et). apply (G [d] c _ _ s0); auto; [exists r0; auto|].
      apply (f_equal (@List.length N)) in Et. rewrite !app_length in Et. rewrite skipn_length. cbn [List.length] in *. lia.
    + rewrite scan_cons, Q. cbn [shown contents flat_map app map]. fold (contents (parts_of st en n (d =? 10) t)).
      pose proof (lits_then f [d] (scan (special st en) (d :: before) t 0 false) ps) as L. cbn [map app] in L. apply L. apply IH; [cbn in Hn; lia|reflexivity].
Qed.
Lemma replace_parts t ps : replace_allM (special st en) f t ps = Ret (shown T form (ps_ref_index ps) (parts st en t)) (set_aside T (map stored (contents (parts st en t))) ps).
Proof.
  unfold replace_allM, segs. destruct (parts_replaced (List.length t) t [] false true ps (le_n _) eq_refl) as (x & E & Ex). unfold bind. rewrite E. unfold ret, parts. rewrite Ex. reflexivity.
Qed.
End Replace.
(** The parts are those of the text. *)
Lemma parts_source n : forall start t, (List.length t <= n)%nat -> flat_map (part_source st en) (parts_of st en n start t) = t.
Proof.
  induction n as [|n IH]; intros start t Hn; [destruct t; [reflexivity|cbn in Hn; lia]|]. destruct t as [|d t]; [reflexivity|]. cbn [parts_of].
  assert (forall b t0 c a r, (List.length t0 <= S n)%nat -> fragment_at st en t0 = Some (c, a, r) -> flat_map (part_source st en) (Marked b c a :: parts_of st en n false r) = b ++ t0) as G.
  { intros b t0 c a r Hl E. destruct (fragment_bracket _ _ _ _ E) as (r0 & -> & -> & Et). cbn [flat_map part_source]. rewrite IH.
    - rewrite Et. rewrite <- !app_assoc, <- bracket_split. reflexivity.
    - apply (f_equal (@List.length N)) in Et. rewrite !app_length in Et. rewrite skipn_length. destruct st; [congruence|]. cbn [List.length] in *. lia. }
  destruct (if start then fragment_at st en (d :: t) else None) as [[[c a] r]|] eqn:E1; [destruct start; [|discriminate]; apply (G []); auto|].
  destruct (if may_precede d then fragment_at st en t else None) as [[[c a] r]|] eqn:E2; [destruct (may_precede d); [|discriminate]; apply (G [d]); [cbn in Hn; lia|auto]|].
  cbn [flat_map part_source app]. f_equal. apply IH. cbn in Hn. lia.
Qed.
End Special.
Lemma set_aside_app T xs ys s : set_aside T (xs ++ ys) s = set_aside T ys (set_aside T xs s).
Proof. apply fold_left_app. Qed.
Lemma cap_or_3 h a : match cap_text 3 (h_caps h) with Some x => x | None => [] end = a -> cap_or 3 h = a.
Proof. exact (fun H => H). Qed.
Lemma options_are b a x y k : let '(b', a') := get_special_options b a in b' ++ x ++ k ++ y ++ a' = between x y b a k.
Proof. unfold get_special_options, between, in_brackets. destruct (seqb b (u "[") && seqb a (u "]")); [cbn [app]; rewrite app_nil_r|]; reflexivity. Qed.
Lemma f_textile_form T h b c a s : cap_text 1 (h_caps h) = Some b -> cap_text 2 (h_caps h) = Some c -> match cap_text 3 (h_caps h) with Some x => x | None => [] end = a ->
  f_textile T h s = Ret (between [] [] b a (fragment_token T (ps_ref_index s + 1))) (set_aside T [c] s).
Proof.
  intros H1 H2 H3. apply cap_or_3 in H3. unfold f_textile, capx. rewrite H1, H2, H3. cbn [of_opt]. rewrite !bind_ret. pose proof (options_are b a [] [] (fragment_token T (ps_ref_index s + 1))) as Q.
  destruct (get_special_options b a) as [b' a']. cbn [app] in Q. unfold bind. rewrite shelve_kept. unfold ret. rewrite Q. reflexivity.
Qed.
Lemma f_code_form T h b c a s : cap_text 1 (h_caps h) = Some b -> cap_text 2 (h_caps h) = Some c -> match cap_text 3 (h_caps h) with Some x => x | None => [] end = a ->
  f_code T h s = Ret (between [] [] b a (fragment_token T (ps_ref_index s + 1))) (set_aside T [element (u "code") (entities false c)] s).
Proof.
  intros H1 H2 H3. apply cap_or_3 in H3. unfold f_code, capx. rewrite H1, H2, H3. cbn [of_opt]. rewrite !bind_ret. pose proof (options_are b a [] [] (fragment_token T (ps_ref_index s + 1))) as Q.
  destruct (get_special_options b a) as [b' a']. cbn [app] in Q. unfold bind. rewrite shelve_kept. unfold ret. rewrite Q, entities_encode.
  assert (u "<code>" = u "<" ++ u "code" ++ u ">") as -> by (vm_compute; reflexivity). assert (u "</code>" = u "</" ++ u "code" ++ u ">") as -> by (vm_compute; reflexivity).
  unfold element, set_aside. cbn [fold_left]. rewrite <- !app_assoc. reflexivity.
Qed.
Lemma f_pre_form T h b c a s : cap_text 1 (h_caps h) = Some b -> cap_text 2 (h_caps h) = Some c -> match cap_text 3 (h_caps h) with Some x => x | None => [] end = a ->
  f_pre T h s = Ret (between (u "<pre>") (u "</pre>") b a (fragment_token T (ps_ref_index s + 1))) (set_aside T [entities true c] s).
Proof.
  intros H1 H2 H3. apply cap_or_3 in H3. unfold f_pre, capx. rewrite H1, H2, H3. cbn [of_opt]. rewrite !bind_ret. pose proof (options_are b a (u "<pre>") (u "</pre>") (fragment_token T (ps_ref_index s + 1))) as Q.
  destruct (get_special_options b a) as [b' a']. unfold bind. rewrite shelve_kept. unfold ret. rewrite Q, entities_encode. reflexivity.
Qed.
Lemma f_comment_form T h b c a s : cap_text 1 (h_caps h) = Some b -> cap_text 2 (h_caps h) = Some c -> match cap_text 3 (h_caps h) with Some x => x | None => [] end = a ->
  f_comment T h s = Ret (comment_form b a (fragment_token T (ps_ref_index s + 1))) (set_aside T [c] s).
Proof.
  intros H1 H2 H3. unfold f_comment, capx. rewrite H1, H2. cbn [of_opt]. rewrite !bind_ret. unfold bind. rewrite shelve_kept. reflexivity.
Qed.
Lemma no_textile_marks T t s :
  let '(t1, s1) := marks_step T (u "<notextile>") (u "</notextile>") (fun c => c) (between [] []) (t, s) in
  let '(t2, s2) := marks_step T (u "==") (u "==") (fun c => c) (between [] []) (t1, s1) in
  no_textile T t s = Ret t2 s2.
Proof.
  unfold marks_step, no_textile, bind. rewrite special_notextile, special_eq.
  rewrite (replace_parts (u "<notextile>") (u "</notextile>") ltac:(discriminate) ltac:(discriminate) ltac:(exists (u "</notextile"), 62; split; [vm_compute; reflexivity|discriminate]) T (fun c => c) (between [] []) (f_textile T) (f_textile_form T)).
  rewrite (replace_parts (u "==") (u "==") ltac:(discriminate) ltac:(discriminate) ltac:(exists (u "="), 61; split; [vm_compute; reflexivity|discriminate]) T (fun c => c) (between [] []) (f_textile T) (f_textile_form T)).
  reflexivity.
Qed.
Lemma code_marks T t s :
  let '(t1, s1) := marks_step T (u "<code>") (u "</code>") (fun c => element (u "code") (entities false c)) (between [] []) (t, s) in
  let '(t2, s2) := marks_step T (u "@") (u "@") (fun c => element (u "code") (entities false c)) (between [] []) (t1, s1) in
  let '(t3, s3) := marks_step T (u "<pre>") (u "</pre>") (entities true) (between (u "<pre>") (u "</pre>")) (t2, s2) in
  code T t s = Ret t3 s3.
Proof.
  unfold marks_step, code, bind. rewrite special_code, special_at, special_pre.
  rewrite (replace_parts (u "<code>") (u "</code>") ltac:(discriminate) ltac:(discriminate) ltac:(exists (u "</code"), 62; split; [vm_compute; reflexivity|discriminate]) T (fun c => element (u "code") (entities false c)) (between [] []) (f_code T) (f_code_form T)).
  rewrite (replace_parts (u "@") (u "@") ltac:(discriminate) ltac:(discriminate) ltac:(exists [], 64; split; [vm_compute; reflexivity|discriminate]) T (fun c => element (u "code") (entities false c)) (between [] []) (f_code T) (f_code_form T)).
  rewrite (replace_parts (u "<pre>") (u "</pre>") ltac:(discriminate) ltac:(discriminate) ltac:(exists (u "</pre"), 62; split; [vm_compute; reflexivity|discriminate]) T (entities true) (between (u "<pre>") (u "</pre>")) (f_pre T) (f_pre_form T)).
  reflexivity.
Qed.
Lemma comment_marks T t s :
  let '(t1, s1) := marks_step T (u "<!--") (u "-->") (fun c => c) comment_form (t, s) in get_html_comments T t s = Ret t1 s1.
Proof.
  unfold marks_step, get_html_comments. rewrite special_comment.
  rewrite (replace_parts (u "<!--") (u "-->") ltac:(discriminate) ltac:(discriminate) ltac:(exists (u "--"), 62; split; [vm_compute; reflexivity|discriminate]) T (fun c => c) comment_form (f_comment T) (f_comment_form T)).
  reflexivity.
Qed.
(** Without brackets, and with the contents in their places, a text is what it was. *)
Lemma comments_refill t : (forall b c a, In (Marked b c a) (parts (u "<!--") (u "-->") t) -> a = []) ->
  flat_map (fun p => match p with Other d => [d] | Marked b c a => comment_form b a c end) (parts (u "<!--") (u "-->") t) = t.
Proof.
  intros H. rewrite <- (parts_source (u "<!--") (u "-->") ltac:(discriminate) ltac:(discriminate) (List.length t) true t (le_n _)) at 2. fold (parts (u "<!--") (u "-->") t).
  induction (parts (u "<!--") (u "-->") t) as [|p l IH]; [reflexivity|]. cbn [flat_map]. rewrite IH by (intros b c a Hi; apply (H b c a); right; exact Hi). f_equal. destruct p as [d|b c a]; [reflexivity|].
  unfold comment_form. cbn [part_source]. rewrite (H b c a ltac:(left; reflexivity)), app_nil_r. reflexivity.
Qed.
Lemma parts_brackets st en n : forall start t b c a, In (Marked b c a) (parts_of st en n start t) -> exists r, a = bracket_after r.
Proof.
  assert (forall t c a r, fragment_at st en t = Some (c, a, r) -> exists r0, a = bracket_after r0) as F.
  { intros t c a r. unfold fragment_at. destruct (starts_with st t); [|discriminate]. destruct (up_to en _) as [[c0 r0]|]; [|discriminate]. intros H. injection H as _ <- _. exists r0. reflexivity. }
  induction n as [|n IH]; intros start t b c a H; [destruct H|]. destruct t as [|d t]; [destruct H|]. cbn [parts_of] in H.
  destruct (if start then fragment_at st en (d :: t) else None) as [[[c1 a1] r1]|] eqn:E1.
  - destruct start; [|discriminate]. destruct H as [H|H]; [injection H as <- <- <-; eapply F; exact E1|eapply IH; exact H].
  - destruct (if may_precede d then fragment_at st en t else None) as [[[c1 a1] r1]|] eqn:E2.
    + destruct (may_precede d); [|discriminate]. destruct H as [H|H]; [injection H as <- <- <-; eapply F; exact E2|eapply IH; exact H].
    + destruct H as [H|H]; [discriminate|eapply IH; exact H].
Qed.
Lemma comments_kept T t s t' s' : (forall a d b, t = a ++ u "-->" ++ d :: b -> ~ In d (u "])}")) -> get_html_comments T t s = Ret t' s' ->
  exists l, t' = shown T comment_form (ps_ref_index s) l /\ s' = set_aside T (contents l) s /\
    flat_map (fun p => match p with Other d => [d] | Marked b c a => comment_form b a c end) l = t.
Proof.
  intros H E. pose proof (comment_marks T t s) as C. unfold marks_step in C. cbn [fst snd] in C. rewrite map_id in C. rewrite C in E. injection E as <- <-. exists (parts (u "<!--") (u "-->") t). split; [reflexivity|]. split; [reflexivity|].
  apply comments_refill. intros b c a Hi. destruct (parts_brackets _ _ _ _ _ _ _ _ Hi) as (r & Ea). destruct r as [|d r]; [exact Ea|]. cbn [bracket_after] in Ea. destruct (existsb (N.eqb d) (u "])}")) eqn:Ed; [|exact Ea]. exfalso.
  apply existsb_exists in Ed as (d' & Hd & Edd). apply N.eqb_eq in Edd. subst d'. apply in_split in Hi as (l1 & l2 & El).
  pose proof (parts_source (u "<!--") (u "-->") ltac:(discriminate) ltac:(discriminate) (List.length t) true t (le_n _)) as Es. fold (parts (u "<!--") (u "-->") t) in Es. rewrite El, flat_map_app in Es. cbn [flat_map part_source] in Es. rewrite Ea in Es.
  apply (H (flat_map (part_source (u "<!--") (u "-->")) l1 ++ b ++ u "<!--" ++ c) d (flat_map (part_source (u "<!--") (u "-->")) l2)); [|exact Hd]. rewrite <- Es, <- !app_assoc. reflexivity.
Qed.
