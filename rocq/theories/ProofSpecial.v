(** Fragments between two marks that are put on the shelf. *)
From Verif Require Import Str Unicode Regex RegexParse RegexSnips RegexTheory RegexAuto RegexGroups Lib ModelBase ModelHtml ModelUrl
  ModelAttrs ModelInline ModelParser SpecRegex ProofRegex ProofCharref SpecParse ProofParse Logic ProofWalk ProofState SpecState ProofMemory ProofCache ProofLinks ProofDoc
  SpecPlain ProofPlain SpecNewlines ProofNewlines ProofParas ProofTags ProofSections ProofBlocks SpecDoc ProofDocument SpecText ProofText ProofWeave SpecSigned ProofSigned ProofSignedDoc ProofSignedPage.
#[local] Arguments u : simpl never.

Definition lead_cls : cls := mk_cls false [CRange 91 91; CRange 40 40; CRange 123 123; CRange 62 62; CRange 124 124].
Definition ws_cls : cls := mk_cls false [CProp false PSpace].
Definition any_cls : cls := mk_cls true [].
Definition close_cls : cls := mk_cls false [CRange 93 93; CRange 41 41; CRange 125 125].
Definition tail_re : re := RAlt (RGroup 3 (RAlt (RAssert EOL) (RCls close_cls))) REps.
Definition special (st en : str) : re :=
  RSeq (RGroup 1 (RAlt (RAssert SOL) (RAlt (RCls ws_cls) (RCls lead_cls))))
    (ProofParas.lit_re st (RSeq (RGroup 2 (RStar false (RCls any_cls))) (ProofParas.lit_re en tail_re))).
Lemma special_notextile : rx_re SPECIAL_NOTEXTILE = special (u "<notextile>") (u "</notextile>"). Proof. reflexivity. Qed.
Lemma special_eq : rx_re SPECIAL_EQ = special (u "==") (u "=="). Proof. reflexivity. Qed.
Lemma special_code : rx_re SPECIAL_CODE = special (u "<code>") (u "</code>"). Proof. reflexivity. Qed.
Lemma special_at : rx_re SPECIAL_AT = special (u "@") (u "@"). Proof. reflexivity. Qed.
Lemma special_pre : rx_re SPECIAL_PRE = special (u "<pre>") (u "</pre>"). Proof. reflexivity. Qed.

Lemma starts_more w : forall a z, starts_with w a = true -> starts_with w (a ++ z) = true.
Proof. induction w as [|c w IH]; intros a z H; [reflexivity|]. destruct a as [|x a]; [discriminate|]. cbn [app starts_with] in *. apply andb_prop in H as [H1 H2]. rewrite H1, (IH _ z H2). reflexivity. Qed.
Lemma starts_split w : forall a, starts_with w a = true -> exists z, a = w ++ z.
Proof. induction w as [|c w IH]; intros a H; [exists a; reflexivity|]. destruct a as [|x a]; [discriminate|]. cbn [starts_with] in H. apply andb_prop in H as [H1 H2]. apply N.eqb_eq in H1 as ->. destruct (IH _ H2) as (z & ->). exists z. reflexivity. Qed.
Lemma lit_miss w r : forall before after cs k, starts_with w after = false -> m (ProofParas.lit_re w r) (mk_mst before after cs) k = None.
Proof.
  induction w as [|c w IH]; intros before after cs k H; [discriminate|]. cbn [ProofParas.lit_re]. rewrite m_seq. destruct after as [|x after]; [reflexivity|]. rewrite m_cls, in_ch.
  cbn [starts_with] in H. destruct (x =? c) eqn:E; [|reflexivity]. apply N.eqb_eq in E as ->. rewrite N.eqb_refl in H. apply IH. exact H.
Qed.
Section Special.
Variables st en : str.
Hypothesis st_ne : st <> [].
Hypothesis en_ne : en <> [].
Lemma special_miss before text : starts_with st text = false -> (forall x rest, text = x :: rest -> starts_with st rest = false) -> match_at (special st en) before text = None.
Proof.
  intros H1 H2. unfold match_at, special. rewrite m_seq, m_group, m_alt, m_assert.
  assert (forall b cs k, m (ProofParas.lit_re st (RSeq (RGroup 2 (RStar false (RCls any_cls))) (ProofParas.lit_re en tail_re))) (mk_mst b text cs) k = None) as Q by (intros; apply lit_miss; auto).
  cbn [m_before m_after m_caps]. rewrite Q. destruct (assert_holds SOL before text); rewrite m_alt.
  all: destruct text as [|x rest]; [reflexivity|]; rewrite !m_cls; cbn [m_before m_after m_caps]; rewrite !lit_miss by (apply (H2 x); reflexivity); destruct (in_cls ws_cls x), (in_cls lead_cls x); reflexivity.
Qed.
(** The mark does not start in the text, whatever follows after the mark. *)
Definition clear (w t : str) : Prop := forall a x b, t = a ++ x :: b -> forall rest, starts_with w (x :: b ++ w ++ rest) = false.
Definition calm_tail (rest : str) : Prop := match rest with [] => True | x :: _ => in_cls close_cls x = false end.
Definition lead (d : N) : Prop := in_cls ws_cls d = true.
Lemma tail_plain before rest cs : calm_tail rest -> exists cs', m tail_re (mk_mst before rest cs) Some = Some (mk_mst before rest cs') /\ (cs' = cs \/ cs' = (3%nat, (rest, rest)) :: cs).
Proof.
  intros H. unfold tail_re. rewrite m_alt, m_group, m_alt, m_assert. destruct (assert_holds EOL before rest) eqn:E; [eexists; split; [reflexivity|]; right; reflexivity|].
  destruct rest as [|x rest]; [discriminate|]. rewrite m_cls. cbn [calm_tail] in H. rewrite H. rewrite m_eps. eexists. split; [reflexivity|left; reflexivity].
Qed.
Lemma any_in x : in_cls any_cls x = true.
Proof. reflexivity. Qed.
Lemma inside_hit before c rest cs : clear en c -> calm_tail rest -> exists cs',
  m (RSeq (RGroup 2 (RStar false (RCls any_cls))) (ProofParas.lit_re en tail_re)) (mk_mst before (c ++ en ++ rest) cs) Some = Some (mk_mst (rev en ++ rev c ++ before) rest cs') /\
  (let cs2 := (2%nat, (c ++ en ++ rest, en ++ rest)) :: cs in cs' = cs2 \/ cs' = (3%nat, (rest, rest)) :: cs2).
Proof.
  intros Hc Hr. rewrite m_seq, m_group. set (cs2 := (2%nat, (c ++ en ++ rest, en ++ rest)) :: cs). destruct (tail_plain (rev en ++ rev c ++ before) rest cs2 Hr) as (cs' & E & Hcs).
  exists cs'. split; [|exact Hcs]. apply m_star_lazy.
  - apply forallb_forall. intros x _. reflexivity.
  - intros w1 x w2 ->. cbn [m_before m_after m_caps]. apply lit_miss. apply (Hc w1 x w2). reflexivity.
  - cbn [m_before m_after m_caps]. rewrite m_lit_re. exact E.
Qed.
Lemma cap_between (a b : str) : cap_str (a ++ b, b) = a.
Proof. apply cap_str_app. Qed.
Record hits (before pre c rest : str) (s : mst) : Prop := mk_hits {
  h_match : match_at (special st en) before (pre ++ st ++ c ++ en ++ rest) = Some s;
  h_after : m_after s = rest;
  h_1 : cap_text 1 (m_caps s) = Some pre;
  h_2 : cap_text 2 (m_caps s) = Some c;
  h_3 : cap_text 3 (m_caps s) = None \/ cap_text 3 (m_caps s) = Some [] }.
Lemma caps_of (x : str) (cs cs2 cs' : caps) c rest pre all : cs = [(1%nat, (all, st ++ c ++ en ++ rest))] -> all = pre ++ st ++ c ++ en ++ rest -> cs2 = (2%nat, (c ++ en ++ rest, en ++ rest)) :: cs ->
  cs' = cs2 \/ cs' = (3%nat, (rest, rest)) :: cs2 -> cap_text 1 cs' = Some pre /\ cap_text 2 cs' = Some c /\ (cap_text 3 cs' = None \/ cap_text 3 cs' = Some []).
Proof.
  intros -> -> -> [-> | ->]; unfold cap_text; cbn [find_cap Nat.eqb option_map]; rewrite !cap_between; (split; [reflexivity|]); (split; [reflexivity|]); [left; reflexivity|right].
  f_equal. apply (cap_between [] rest).
Qed.
Lemma special_hit_sol before c rest : assert_holds SOL before (st ++ c ++ en ++ rest) = true -> clear en c -> calm_tail rest -> exists s, hits before [] c rest s.
Proof.
  intros Hs Hc Hr. set (all := st ++ c ++ en ++ rest) in *.
  destruct (inside_hit (rev st ++ before) c rest [(1%nat, (all, all))] Hc Hr) as (cs' & E & Hcs).
  destruct (caps_of [] _ _ _ c rest [] all eq_refl eq_refl eq_refl Hcs) as (C1 & C2 & C3).
  eexists (mk_mst _ rest cs'). split; [|reflexivity|exact C1|exact C2|exact C3].
  unfold match_at, special. rewrite m_seq, m_group, m_alt, m_assert. cbn [app]. fold all. rewrite Hs. cbn [m_before m_after m_caps]. unfold all at 1. rewrite m_lit_re. fold all. unfold str in *. rewrite E. reflexivity.
Qed.
Lemma special_hit_lead before d c rest : lead d -> starts_with st (d :: st ++ c ++ en ++ rest) = false -> clear en c -> calm_tail rest -> exists s, hits before [d] c rest s.
Proof.
  intros Hd Hn Hc Hr. set (w := st ++ c ++ en ++ rest) in *. set (all := d :: w).
  destruct (inside_hit (rev st ++ d :: before) c rest [(1%nat, (all, w))] Hc Hr) as (cs' & E & Hcs).
  destruct (caps_of [] _ _ _ c rest [d] all eq_refl eq_refl eq_refl Hcs) as (C1 & C2 & C3).
  eexists (mk_mst _ rest cs'). split; [|reflexivity|exact C1|exact C2|exact C3].
  unfold match_at, special. rewrite m_seq, m_group, m_alt, m_assert. cbn [app]. fold w. fold all. cbn [m_before m_after m_caps]. unfold str in *.
  assert (forall b cs k, m (ProofParas.lit_re st (RSeq (RGroup 2 (RStar false (RCls any_cls))) (ProofParas.lit_re en tail_re))) (mk_mst b all cs) k = None) as Q by (intros; apply lit_miss; exact Hn). rewrite Q.
  rewrite m_alt. unfold all at 2. rewrite m_cls. unfold lead in Hd. rewrite Hd. cbn [m_before m_after m_caps].
  assert (forall R b cs k, m (ProofParas.lit_re st R) (mk_mst b w cs) k = m R (mk_mst (rev st ++ b) (c ++ en ++ rest) cs) k) as Q2 by (intros; apply m_lit_re). rewrite Q2. unfold str in *. rewrite E. destruct (assert_holds SOL before all); reflexivity.
Qed.
Lemma clear_no w t : clear w t -> forall a x b z, t = a ++ x :: b -> z = [] \/ (exists rest, z = w ++ rest) -> starts_with w (x :: b ++ z) = false.
Proof.
  intros H a x b z E [-> |(rest & ->)]; [|apply (H a); auto]. rewrite app_nil_r. destruct (starts_with w (x :: b)) eqn:F; [|reflexivity].
  apply (starts_more _ _ (w ++ [])) in F. cbn [app] in F. specialize (H a x b E []). unfold str in *. congruence.
Qed.

(** ** A text with fragments *)
Definition rendered (l : list (str * str)) : str := flat_map (fun p => st ++ fst p ++ en ++ snd p) l.
Definition ends_lead (t : str) : Prop := exists a d, t = a ++ [d] /\ lead d.
Fixpoint goes_on (l : list (str * str)) : Prop :=
  match l with
  | [] => True
  | (c, t) :: l' => clear en c /\ clear st t /\ calm_tail t /\ (l' <> [] -> ends_lead t) /\ goes_on l'
  end.
Section Replace.
Variables (T : textile) (k : str -> str) (f : hit -> M str).
Hypothesis f_ok : forall h pre c s, cap_text 1 (h_caps h) = Some pre -> cap_text 2 (h_caps h) = Some c -> cap_text 3 (h_caps h) = None \/ cap_text 3 (h_caps h) = Some [] ->
  f h s = Ret (pre ++ fragment_token T (ps_ref_index s + 1)) (put T (k c) s).
Fixpoint toks (n : N) (l : list (str * str)) : str :=
  match l with [] => [] | (c, t) :: l' => fragment_token T (n + 1) ++ t ++ toks (n + 1) l' end.
Lemma mapM_lits w l s : mapM (replace_segM f) (map Lit w ++ l) s = bind (mapM (replace_segM f) l) (fun x => ret (map (fun c => [c]) w ++ x)) s.
Proof.
  induction w as [|c w IH] in s |- *; cbn [map app mapM].
  - unfold bind. destruct (mapM (replace_segM f) l s); reflexivity.
  - cbn [replace_segM]. rewrite bind_ret. unfold bind at 1. rewrite IH. unfold bind. destruct (mapM (replace_segM f) l s); reflexivity.
Qed.
Lemma concat_chars w : List.concat (map (fun c : N => [c]) w) = w.
Proof. induction w as [|c w IH]; [reflexivity|]. cbn [map List.concat app]. rewrite IH. reflexivity. Qed.
Definition outcome_is (x : res (list str)) (y : str) (s : pstate) : Prop := exists l, x = Ret l s /\ List.concat l = y.
Lemma lits_then w l s y s' : outcome_is (mapM (replace_segM f) l s) y s' -> outcome_is (mapM (replace_segM f) (map Lit w ++ l) s) (w ++ y) s'.
Proof. intros (x & E & <-). rewrite mapM_lits. unfold bind. rewrite E. eexists. split; [reflexivity|]. rewrite concat_app, concat_chars. reflexivity. Qed.
Lemma scan_none before t last : clear st t -> scan (special st en) before t O last = map Lit t.
Proof.
  intros H. revert before last. assert (forall t', (exists a, t = a ++ t') -> forall before last, scan (special st en) before t' O last = map Lit t') as Q; [|apply Q; exists []; reflexivity].
  induction t' as [|x t' IH]; intros (a & E) before last.
  - rewrite scan_nil. destruct last; [reflexivity|]. rewrite special_miss; [reflexivity| |intros; discriminate]. destruct st; [congruence|reflexivity].
  - rewrite scan_cons, special_miss.
    + rewrite IH; [reflexivity|]. exists (a ++ [x]). rewrite <- app_assoc. exact E.
    + pose proof (clear_no _ _ H a x t' [] E (or_introl eq_refl)) as G. rewrite app_nil_r in G. exact G.
    + intros y r F. injection F as <- <-. destruct t' as [|z t']; [destruct st; [congruence|reflexivity]|].
      pose proof (clear_no _ _ H (a ++ [x]) z t' [] ltac:(rewrite <- app_assoc; exact E) (or_introl eq_refl)) as G. rewrite app_nil_r in G. exact G.
Qed.
Lemma scan_to_lead w d before last more : clear st (w ++ [d]) -> (exists rest, more = st ++ rest) ->
  exists last', scan (special st en) before (w ++ d :: more) O last = map Lit w ++ scan (special st en) (rev w ++ before) (d :: more) O last'.
Proof.
  intros H (rest & ->). destruct w as [|x w]; [exists last; reflexivity|]. exists false. apply scan_pass; [discriminate|]. intros a c b E. apply special_miss.
  - pose proof (H a c (b ++ [d])) as G. rewrite E in G. specialize (G ltac:(rewrite <- app_assoc; reflexivity) rest). rewrite <- app_assoc in G. exact G.
  - intros y r F. injection F as <- <-. destruct b as [|z b].
    + pose proof (H (a ++ [c]) d []) as G. rewrite E in G. specialize (G eq_refl rest). exact G.
    + pose proof (H (a ++ [c]) z (b ++ [d])) as G. rewrite E in G. specialize (G ltac:(rewrite <- !app_assoc; reflexivity) rest). rewrite <- app_assoc in G. exact G.
Qed.
Lemma hit_scan before last pre c rest s : hits before pre c rest s -> scan (special st en) before (pre ++ st ++ c ++ en ++ rest) O last =
  Hit (mk_hit_of (pre ++ st ++ c ++ en ++ rest) s) :: scan (special st en) (rev (pre ++ st ++ c ++ en) ++ before) rest O true.
Proof.
  intros [H1 H2 _ _ _]. assert (exists x y, pre ++ st ++ c ++ en ++ rest = x :: y) as (x & y & E).
  { destruct pre; [destruct st; [congruence|eexists _, _; reflexivity]|eexists _, _; reflexivity]. }
  rewrite E in *. rewrite scan_cons, H1. assert (h_text (mk_hit_of (x :: y) s) = pre ++ st ++ c ++ en) as Eh.
  { unfold mk_hit_of. cbn [h_text]. rewrite <- E, H2. assert (pre ++ st ++ c ++ en ++ rest = (pre ++ st ++ c ++ en) ++ rest) as -> by (rewrite <- !app_assoc; reflexivity). apply cap_between. }
  rewrite Eh, H2. destruct (pre ++ st ++ c ++ en) eqn:F; [|reflexivity]. exfalso. destruct pre; [|discriminate]. destruct st; [congruence|discriminate].
Qed.
Lemma hit_then l before pre c rest s0 ps y ps' : hits before pre c rest s0 ->
  outcome_is (mapM (replace_segM f) l (put T (k c) ps)) y ps' ->
  outcome_is (mapM (replace_segM f) (Hit (mk_hit_of (pre ++ st ++ c ++ en ++ rest) s0) :: l) ps) (pre ++ fragment_token T (ps_ref_index ps + 1) ++ y) ps'.
Proof.
  intros [H1 H2 H3 H4 H5] (x & E & <-). cbn [mapM replace_segM]. unfold bind at 1. rewrite (f_ok _ pre c); auto. unfold bind. rewrite E. eexists. split; [reflexivity|]. cbn [List.concat]. rewrite <- app_assoc. reflexivity.
Qed.
Lemma replaced l : forall before t last ps, clear st t -> (l <> [] -> ends_lead t \/ (t = [] /\ before = [])) -> goes_on l ->
  outcome_is (mapM (replace_segM f) (scan (special st en) before (t ++ rendered l) O last) ps) (t ++ toks (ps_ref_index ps) l) (puts T (map (fun p => k (fst p)) l) ps).
Proof.
  induction l as [|[c t'] l IH]; intros before t last ps Ht He Hg.
  - cbn [rendered flat_map toks map puts fold_left]. rewrite !app_nil_r, scan_none by auto. exists (map (fun c => [c]) t). split; [|apply concat_chars].
    pose proof (mapM_lits t [] ps) as E. rewrite app_nil_r in E. rewrite E. cbn [mapM]. rewrite bind_ret. unfold ret. rewrite app_nil_r. reflexivity.
  - cbn [goes_on] in Hg. destruct Hg as (G1 & G2 & G3 & G4 & G5). unfold rendered. cbn [flat_map fst snd]. fold (rendered l). rewrite <- !app_assoc.
    assert (calm_tail (t' ++ rendered l)) as Hr.
    { destruct t' as [|x t']; [|exact G3]. destruct l as [|p l]; [exact I|]. destruct (G4 ltac:(discriminate)) as (a & d & F & _). destruct a; discriminate. }
    assert (forall before last, outcome_is (mapM (replace_segM f) (scan (special st en) before (t' ++ rendered l) 0 last) (put T (k c) ps)) (t' ++ toks (ps_ref_index ps + 1) l) (puts T (map (fun p => k (fst p)) l) (put T (k c) ps))) as Q.
    { intros b0 l0. apply IH; auto. }
    cbn [toks map fst]. change (puts T (k c :: ?r) ps) with (puts T r (put T (k c) ps)).
    destruct (He ltac:(discriminate)) as [(w & d & -> & Hd)|[-> ->]].
    + assert (starts_with st (d :: st ++ c ++ en ++ t' ++ rendered l) = false) as Hn by (apply (Ht w d []); reflexivity).
      rewrite <- !app_assoc. cbn [app]. destruct (scan_to_lead w d before last (st ++ c ++ en ++ t' ++ rendered l) Ht ltac:(eexists; reflexivity)) as (last' & ->). apply lits_then.
      destruct (special_hit_lead (rev w ++ before) d c (t' ++ rendered l) Hd Hn G1 Hr) as (s0 & Hs). change (d :: st ++ ?z) with ([d] ++ st ++ z). rewrite (hit_scan _ last' _ _ _ _ Hs).
      change (d :: ?z) with ([d] ++ z). eapply hit_then; [exact Hs|]. apply Q.
    + destruct (special_hit_sol [] c (t' ++ rendered l) eq_refl G1 Hr) as (s0 & Hs). pose proof (hit_scan _ last _ _ _ _ Hs) as Es. cbn [app] in Es |- *. rewrite Es.
      pose proof (hit_then (scan (special st en) (rev (st ++ c ++ en) ++ []) (t' ++ rendered l) O true) [] [] c (t' ++ rendered l) s0 ps _ _ Hs (Q _ _)) as P. cbn [app] in P. exact P.
Qed.
Lemma replace_special t l ps : clear st t -> (l <> [] -> ends_lead t \/ t = []) -> goes_on l ->
  replace_allM (special st en) f (t ++ rendered l) ps = Ret (t ++ toks (ps_ref_index ps) l) (puts T (map (fun p => k (fst p)) l) ps).
Proof.
  intros H1 H2 H3. unfold replace_allM, segs. destruct (replaced l [] t false ps H1 ltac:(intros Hl; destruct (H2 Hl); auto) H3) as (x & E & <-). unfold bind. rewrite E. reflexivity.
Qed.
End Replace.
(** No mark. *)
Lemma special_none t : (forall a b, t <> a ++ st ++ b) -> no_match (special st en) t.
Proof.
  intros H a b ->. apply special_miss.
  - destruct (starts_with st b) eqn:E; [|reflexivity]. apply starts_split in E as (z & ->). destruct (H a z eq_refl).
  - intros x r ->. destruct (starts_with st r) eqn:E; [|reflexivity]. apply starts_split in E as (z & ->). destruct (H (a ++ [x]) z). rewrite <- app_assoc. reflexivity.
Qed.
End Special.
Lemma f_textile_ok T h pre c s : cap_text 1 (h_caps h) = Some pre -> cap_text 2 (h_caps h) = Some c -> cap_text 3 (h_caps h) = None \/ cap_text 3 (h_caps h) = Some [] ->
  f_textile T h s = Ret (pre ++ fragment_token T (ps_ref_index s + 1)) (put T c s).
Proof.
  intros H1 H2 H3. unfold f_textile, capx. rewrite H1, H2. cbn [of_opt]. rewrite !bind_ret. assert (cap_or 3 h = []) as -> by (unfold cap_or, cap_opt; destruct H3 as [-> | ->]; reflexivity).
  unfold get_special_options. rewrite andb_false_r. unfold bind. rewrite shelve_kept. unfold ret. rewrite app_nil_r. reflexivity.
Qed.
Definition code_of (c : str) : str := u "<code>" ++ encode_html c false false ++ u "</code>".
Lemma f_code_ok T h pre c s : cap_text 1 (h_caps h) = Some pre -> cap_text 2 (h_caps h) = Some c -> cap_text 3 (h_caps h) = None \/ cap_text 3 (h_caps h) = Some [] ->
  f_code T h s = Ret (pre ++ fragment_token T (ps_ref_index s + 1)) (put T (code_of c) s).
Proof.
  intros H1 H2 H3. unfold f_code, capx. rewrite H1, H2. cbn [of_opt]. rewrite !bind_ret. assert (cap_or 3 h = []) as -> by (unfold cap_or, cap_opt; destruct H3 as [-> | ->]; reflexivity).
  unfold get_special_options. rewrite andb_false_r. unfold bind. rewrite shelve_kept. unfold ret. rewrite app_nil_r. reflexivity.
Qed.
