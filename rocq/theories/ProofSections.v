(** Strings without a placeholder; documents in sections. *)
From Verif Require Import Str Unicode Regex RegexParse RegexSnips RegexTheory RegexAuto RegexGroups Lib ModelBase ModelHtml ModelUrl
  ModelAttrs ModelInline ModelParser SpecRegex ProofRegex SpecParse ProofParse ProofLinks ProofDoc SpecPlain SpecNewlines ProofNewlines ProofParas ProofTags.
#[local] Arguments u : simpl never.

(** ** Searching across a character that the pattern does not have *)
Lemma starts_with_cut p d b : ~ In d p -> forall a, starts_with p (a ++ d :: b) = starts_with p a.
Proof.
  induction p as [|x p IH]; intros H a; [destruct a; reflexivity|]. destruct a as [|y a]; cbn [app starts_with].
  - destruct (N.eqb_spec x d) as [->|]; [destruct H; left; auto|reflexivity].
  - rewrite IH; [reflexivity|]. intros F. apply H. right. auto.
Qed.
Lemma contains_cut p d b : ~ In d p -> p <> [] -> forall a, contains p (a ++ d :: b) = contains p a || contains p b.
Proof.
  intros H Hn. induction a as [|y a IH].
  - change ([] ++ d :: b) with (d :: b). cbn [contains]. pose proof (starts_with_cut p d b H []) as E. cbn [app] in E. rewrite E. destruct p; [congruence|reflexivity].
  - change ((y :: a) ++ d :: b) with (y :: a ++ d :: b). cbn [contains]. pose proof (starts_with_cut p d b H (y :: a)) as E. cbn [app] in E. rewrite E, IH, orb_assoc. reflexivity.
Qed.
Lemma replace_go_cut p q d b : ~ In d p -> p <> [] -> forall a k, (k <= List.length a)%nat ->
  replace_go p q k (a ++ d :: b) = replace_go p q k a ++ d :: replace_go p q O b.
Proof.
  intros H Hn. induction a as [|y a IH]; intros k Hk.
  - assert (k = O) as -> by (cbn in Hk; lia). pose proof (starts_with_cut p d b H []) as E. cbn [app] in *. cbn [replace_go]. rewrite E.
    destruct p; [congruence|reflexivity].
  - change ((y :: a) ++ d :: b) with (y :: a ++ d :: b). cbn [replace_go]. destruct k as [|k].
    + pose proof (starts_with_cut p d b H (y :: a)) as E. cbn [app] in E. rewrite E. destruct (starts_with p (y :: a)) eqn:Es.
      * rewrite IH, <- app_assoc; [reflexivity|]. apply starts_with_iff in Es. destruct Es as (r & Er).
        apply (f_equal (@List.length N)) in Er. rewrite app_length in Er. cbn [List.length] in Er. lia.
      * rewrite IH by lia. reflexivity.
    + apply IH. cbn in Hk. lia.
Qed.
Lemma replace_cut p q d b a : ~ In d p -> p <> [] -> replace_str (a ++ d :: b) p q = replace_str a p q ++ d :: replace_str b p q.
Proof. intros H Hn. unfold replace_str. destruct p; [congruence|]. apply replace_go_cut; auto. lia. Qed.
Lemma replace_absent p q t : p <> [] -> contains p t = false -> replace_str t p q = t.
Proof.
  intros Hn. unfold replace_str. destruct p as [|x p]; [congruence|]. clear Hn. induction t as [|c t IH]; [reflexivity|].
  cbn [contains replace_go]. intros H. apply orb_false_elim in H as [-> H]. rewrite IH; auto.
Qed.
Lemma replace_self p q : p <> [] -> replace_str p p q = q.
Proof.
  intros Hn. unfold replace_str. destruct p as [|x p]; [congruence|]. cbn [replace_go].
  assert (starts_with (x :: p) (x :: p) = true) as -> by (apply starts_with_iff; exists []; rewrite app_nil_r; reflexivity).
  assert (forall p' k, (List.length p' <= k)%nat -> replace_go (x :: p) q k p' = []) as E.
  { induction p' as [|y p' IH]; intros k Hk; [reflexivity|]. destruct k as [|k]; [cbn in Hk; lia|]. cbn [replace_go]. apply IH. cbn in Hk. lia. }
  rewrite E by (cbn; lia). apply app_nil_r.
Qed.
Lemma contains_sub p a b : contains p (a ++ b) = false -> contains p a = false /\ contains p b = false.
Proof.
  intros H. split; [destruct (contains p a) eqn:E|destruct (contains p b) eqn:E]; auto; apply contains_split in E; destruct E as (x & y & ->).
  - rewrite <- !app_assoc in H. rewrite contains_mid in H. discriminate.
  - rewrite app_assoc in H. rewrite contains_mid in H. discriminate.
Qed.
(** Characters replaced by bracketed words. *)
Lemma contains_subst p (f : N -> str) : p <> [] ->
  (forall c, f c = [c] \/ exists d e w, f c = d :: w ++ [e] /\ ~ In d p /\ ~ In e p /\ contains p w = false) ->
  forall t w, contains p (w ++ t) = false -> contains p (w ++ flat_map f t) = false.
Proof.
  intros Hn Hf. induction t as [|c t IH]; intros w H; [exact H|]. cbn [flat_map].
  destruct (Hf c) as [->|(d & e & v & -> & Hd & He & Hv)].
  - specialize (IH (w ++ [c])). rewrite <- !app_assoc in IH. apply IH. exact H.
  - cbn [app]. rewrite <- app_assoc. cbn [app]. rewrite !contains_cut by auto. apply contains_sub in H as [-> H].
    rewrite Hv. apply (IH []). apply (contains_sub p [c] t H).
Qed.

(** ** Sections *)
Lemma sections_cons b l : l <> [] -> sections (b :: l) = b ++ 10 :: 10 :: sections l.
Proof. destruct l; [congruence|reflexivity]. Qed.
Definition firm (s : str) : Prop := ~ In 13 s /\ forall l, In l (lines s) -> blank_line l = false.
Lemma firm_ne s : firm s -> s <> [].
Proof. intros [_ H] ->. specialize (H [] (or_introl eq_refl)). discriminate. Qed.
Lemma firm_first s : firm s -> exists c r, s = c :: r /\ c <> 10.
Proof.
  intros H. pose proof (firm_ne s H) as Hn. destruct H as [_ H]. destruct s as [|c r]; [congruence|]. exists c, r. split; auto. intros ->.
  rewrite lines_cons in H. specialize (H [] (or_introl eq_refl)). discriminate.
Qed.
Lemma firm_no_pair s a b : firm s -> s = a ++ 10 :: b -> exists c r, b = c :: r /\ c <> 10.
Proof.
  intros [_ H] ->. rewrite lines_mid in H. destruct b as [|c r].
  - specialize (H []). discriminate H. apply in_or_app. right. left. reflexivity.
  - exists c, r. split; auto. intros ->. specialize (H []). discriminate H. apply in_or_app. right. rewrite lines_cons. left. reflexivity.
Qed.
Lemma firm_last s : firm s -> exists v d, s = v ++ [d] /\ d <> 10.
Proof.
  intros H. pose proof (firm_ne s H) as Hn. destruct (exists_last Hn) as (v & d & E). exists v, d. split; auto. intros ->.
  destruct (firm_no_pair s v [] H E) as (? & ? & ? & _). discriminate.
Qed.
Lemma unix_id t : ~ In 13 t -> unix t = t.
Proof.
  induction t as [|c t IH]; intros H; [reflexivity|]. assert (unix t = t) as E by (apply IH; intros F; apply H; right; auto).
  assert (c <> 13) as Hc by (intros ->; apply H; left; auto).
  destruct c as [|p]; [cbn [unix]; rewrite E; reflexivity|]. do 4 (destruct p; try (cbn [unix]; rewrite E; reflexivity)). congruence.
Qed.
Lemma sections_13 l : (forall s, In s l -> firm s) -> ~ In 13 (sections l).
Proof.
  induction l as [|s l IH]; intros H F; [destruct F|]. destruct l as [|x l].
  - apply (proj1 (H s (or_introl eq_refl))). exact F.
  - rewrite sections_cons in F by discriminate. apply in_app_or in F. destruct F as [F|[F|[F|F]]]; try discriminate.
    + apply (proj1 (H s (or_introl eq_refl))). exact F.
    + apply IH; auto. intros s' Hs. apply H. right. auto.
Qed.
Lemma sections_lines l x : l <> [] -> (forall s, In s l -> firm s) -> In x (lines (sections l)) -> blank_line x = true -> x = [].
Proof.
  induction l as [|s l IH]; intros Hn H Hx Hb; [congruence|]. destruct l as [|y l].
  - rewrite (proj2 (H s (or_introl eq_refl)) x Hx) in Hb. discriminate.
  - rewrite sections_cons in Hx by discriminate. rewrite lines_mid, lines_cons in Hx. cbn [N.eqb Pos.eqb] in Hx. apply in_app_or in Hx. destruct Hx as [Hx|[Hx|Hx]]; auto.
    + rewrite (proj2 (H s (or_introl eq_refl)) x Hx) in Hb. discriminate.
    + apply IH; auto; [discriminate|]. intros s' Hs. apply H. right. auto.
Qed.
Lemma sections_first l : l <> [] -> (forall s, In s l -> firm s) -> exists c r, sections l = c :: r /\ c <> 10.
Proof.
  intros Hn H. destruct l as [|s l]; [congruence|]. destruct (firm_first s (H s (or_introl eq_refl))) as (c & r & -> & Hc).
  destruct l; [exists c, r; auto|]. rewrite sections_cons by discriminate. eexists c, _. split; [reflexivity|auto].
Qed.
Lemma sections_last l : l <> [] -> (forall s, In s l -> firm s) -> exists v d, sections l = v ++ [d] /\ d <> 10.
Proof.
  intros Hn H. induction l as [|s l IH]; [congruence|]. destruct l as [|x l]; [apply (firm_last s (H s (or_introl eq_refl)))|].
  destruct IH as (v & d & E & Hd); [discriminate|intros s' Hs; apply H; right; auto|]. rewrite sections_cons by discriminate. rewrite E.
  exists (s ++ 10 :: 10 :: v), d. split; auto. rewrite <- app_assoc. reflexivity.
Qed.
Lemma blank_out_id ls : (forall l, In l ls -> blank_line l = true -> l = []) -> blank_out ls = ls.
Proof.
  induction ls as [|l ls IH]; intros H; [reflexivity|]. destruct ls as [|x ls]; [reflexivity|].
  change (blank_out (l :: x :: ls)) with ((if blank_line l then [] else l) :: blank_out (x :: ls)). rewrite IH by (intros; apply H; auto; right; auto).
  f_equal. destruct (blank_line l) eqn:E; auto. symmetry. apply H; auto. left. auto.
Qed.
Lemma tidy_sections l : (forall s, In s l -> firm s) -> tidy (sections l) = sections l.
Proof.
  intros H. destruct l as [|s l]; [reflexivity|]. set (d := s :: l) in *. assert (d <> []) as Hn by discriminate.
  unfold tidy. rewrite unix_id by (apply sections_13; auto). rewrite blank_out_id by (intros; eapply sections_lines; eauto). rewrite unlines_lines.
  rewrite <- (app_nil_r (sections d)) at 1. apply (no_outer_split O (sections d) O). right.
  destruct (sections_first d Hn H) as (c & r & E & Hc). destruct (sections_last d Hn H) as (v & x & E' & Hx). exists c, x, r, v. auto.
Qed.
(** The pieces of a document. *)
Fixpoint section_pieces (l : list str) : list str :=
  match l with [] => [] | [b] => [b] | b :: rest => b :: [10; 10] :: section_pieces rest end.
Lemma multi_shape : rx_re MULTI_ENDLINE_RE = RGroup 1 (RSeq (RSeq (RCls (one 10)) (RCls (one 10))) (RStar true (RCls (one 10)))).
Proof. reflexivity. Qed.
Lemma multi_none_at before c t : c <> 10 \/ (match t with d :: _ => d <> 10 | [] => True end) -> match_at (rx_re MULTI_ENDLINE_RE) before (c :: t) = None.
Proof.
  intros H. unfold match_at. rewrite multi_shape, m_group, !m_seq, m_cls, in_one. destruct (N.eqb_spec c 10) as [->|]; [|reflexivity].
  destruct H as [H|H]; [congruence|]. destruct t as [|d t]; [reflexivity|]. rewrite m_cls, in_one. destruct (N.eqb_spec d 10); [congruence|reflexivity].
Qed.
Lemma multi_some_at before t : (match t with d :: _ => d <> 10 | [] => True end) ->
  exists s, match_at (rx_re MULTI_ENDLINE_RE) before ([10; 10] ++ t) = Some s /\ m_after s = t /\ cap_text 1 (m_caps s) = Some [10; 10].
Proof.
  intros H. exists (mk_mst (10 :: 10 :: before) t [(1%nat, ([10; 10] ++ t, t))]). split; [|split; [reflexivity|]].
  - unfold match_at. cbn [app]. rewrite multi_shape, m_group, !m_seq, m_cls, in_one. cbn [N.eqb Pos.eqb]. rewrite m_cls, in_one. cbn [N.eqb Pos.eqb].
    rewrite m_star. cbn [m_after]. destruct t as [|d t]; [reflexivity|]. rewrite star_loop_cons, m_cls, in_one. destruct (N.eqb_spec d 10); [congruence|reflexivity].
  - unfold cap_text. cbn [m_caps find_cap Nat.eqb option_map]. f_equal. apply cap_str_app.
Qed.
Lemma firm_scan s before rest last : firm s -> (match rest with [] => True | d :: _ => True end) ->
  scan (rx_re MULTI_ENDLINE_RE) before (s ++ rest) O last = map Lit s ++ scan (rx_re MULTI_ENDLINE_RE) (rev s ++ before) rest O false.
Proof.
  intros H _. apply scan_pass; [apply firm_ne; auto|]. intros a c b E. apply multi_none_at. destruct (N.eqb_spec c 10) as [->|]; [right|left; auto].
  destruct (firm_no_pair s a b H E) as (x & r & -> & Hx). exact Hx.
Qed.
Lemma split_sections l : l <> [] -> (forall s, In s l -> firm s) -> split_rx MULTI_ENDLINE_RE (sections l) = Some (section_pieces l).
Proof.
  intros Hn H. unfold split_rx, segs. change (rx_len MULTI_ENDLINE_RE) with 2%nat.
  enough (forall before last, split_go 2 (scan (rx_re MULTI_ENDLINE_RE) before (sections l) O last) [] = Some (section_pieces l)) as E by apply E.
  induction l as [|s l IH]; intros before last; [congruence|]. pose proof (H s (or_introl eq_refl)) as Hs. destruct l as [|x l].
  - cbn [sections section_pieces]. rewrite <- (app_nil_r s) at 1. rewrite firm_scan by auto. rewrite scan_nil. 
    replace (match_at (rx_re MULTI_ENDLINE_RE) (rev s ++ before) []) with (@None mst) by reflexivity.
    rewrite split_go_lits. cbn [split_go]. rewrite app_nil_r, rev_involutive. reflexivity.
  - rewrite sections_cons by discriminate. rewrite firm_scan by auto. rewrite split_go_lits.
    assert (forall s0, In s0 (x :: l) -> firm s0) as Hl by (intros; apply H; right; auto).
    destruct (sections_first (x :: l) ltac:(discriminate) Hl) as (c & r & E & Hc).
    destruct (multi_some_at (rev s ++ before) (sections (x :: l))) as (st & Em & Ea & C1); [rewrite E; auto|].
    change (10 :: 10 :: sections (x :: l)) with ([10; 10] ++ sections (x :: l)).
    rewrite (scan_take _ _ [10; 10] (sections (x :: l)) st) by (auto; discriminate). rewrite split_hit.
    replace (group_texts 2 (mk_hit_of ([10; 10] ++ sections (x :: l)) st)) with [Some [10; 10]].
    2:{ unfold group_texts, mk_hit_of. cbn [seq map h_caps Nat.sub]. rewrite C1. reflexivity. }
    cbn [forallb is_some andb]. rewrite IH; auto; [|discriminate]. rewrite app_nil_r, rev_involutive. reflexivity.
Qed.
