(** The symbols that each replacement changes. *)
From Verif Require Import Str Unicode Regex RegexParse RegexSnips RegexTheory RegexAuto RegexPath Lib ModelBase ModelInline ProofPlain ProofParas ProofText SpecPlain SpecText SpecSymbols ProofImages ProofGlyphs ProofSymbolAuto ProofSymbolStep.
#[local] Arguments u : simpl never.

(** ** A match inside of a symbol *)
Lemma hit_step A H r f p w t w' q1 q2 : clear A H r = true -> w <> [] ->
  Path A H 60 p q1 -> Path A [] q1 w q2 -> Path A H q2 t 8 ->
  (forall b v, exists s, match_at r (rev p ++ b) (w ++ t ++ v) = Some s /\ m_after s = t ++ v /\ f (mk_hit w (m_caps s)) = w') ->
  Path A [] 60 (p ++ w ++ t) 8 /\
  forall b v last, RegexAuto.Pre A 60 b -> Suf A 8 v -> exists last',
  out r f b ((p ++ w ++ t) ++ v) last = (p ++ w' ++ t) ++ out r f (rev (p ++ w ++ t) ++ b) v last'.
Proof.
  intros Hc Hw H1 H2 H3 Hm. split. { eapply path_app; [eapply path_any; exact H1|]. eapply path_app; [exact H2|eapply path_any; exact H3]. }
  intros b v last Hp Hs. assert (Suf A q2 (t ++ v)) as S2 by (eapply path_suf; eauto). assert (Suf A q1 (w ++ t ++ v)) as S1 by (eapply path_suf; eauto).
  assert (RegexAuto.Pre A q1 (rev p ++ b)) as P1 by (eapply path_pre; eauto). assert (RegexAuto.Pre A q2 (rev w ++ rev p ++ b)) as P2 by (eapply path_pre; eauto).
  destruct (out_path A H r f 60 p q1 Hc H1 b (w ++ t ++ v) last Hp S1) as (l1 & E1).
  destruct (Hm b v) as (s & M1 & M2 & M3).
  pose proof (out_hit r f (rev p ++ b) w (t ++ v) s l1 Hw M1 M2) as E2. rewrite M3 in E2.
  destruct (out_path A H r f q2 t 8 Hc H3 (rev w ++ rev p ++ b) v true P2 Hs) as (l3 & E3).
  exists l3. rewrite <- !app_assoc. rewrite E1, E2, E3. rewrite !rev_app_distr, <- !app_assoc. reflexivity.
Qed.
Lemma path_many A H q k : forall w, In (q, k, q) (au_trans A) -> mem q H = false -> (forall c, In c w -> in_cls k c = true) -> Path A H q w q.
Proof. induction w as [|c w IH]; intros Ht Hq Hc; [constructor|]. econstructor; [exact Hq|exact Ht|apply Hc; left; reflexivity|]. apply IH; auto. intros; apply Hc; right; auto. Qed.
Lemma fork_path A H x y k' : In (x, k', x) (au_trans A) -> In (x, k', y) (au_trans A) -> mem x H = false ->
  forall w q k c, in_cls k c = true -> (forall d, In d w -> in_cls k' d = true) -> In (q, k, x) (au_trans A) -> In (q, k, y) (au_trans A) -> mem q H = false -> Path A H q (c :: w) y.
Proof.
  intros T1 T2 Hx. induction w as [|d w IH]; intros q k c Hc Hw T3 T4 Hq.
  - econstructor; [exact Hq|exact T4|exact Hc|constructor].
  - econstructor; [exact Hq|exact T3|exact Hc|]. apply (IH x k' d); auto; [apply Hw; left; reflexivity|intros; apply Hw; right; auto].
Qed.
Lemma last_of (w : str) : w <> [] -> exists w0 c, w = w0 ++ [c].
Proof. intros H. destruct (exists_last H) as (w0 & c & ->). eauto. Qed.
Lemma apart_in k apart t : In t apart -> In t (au_trans (stage_auto k apart)).
Proof. intros H. cbn [stage_auto au_trans]. rewrite !in_app_iff. auto. Qed.
Lemma az_all (P : N -> bool) : forallb P (map N.of_nat (seq 97 26)) = true -> forall c, 97 <= c <= 122 -> P c = true.
Proof. intros H c Hc. rewrite forallb_forall in H. apply H, in_run. lia. Qed.
Lemma dg_all (P : N -> bool) : forallb P (map N.of_nat (seq 48 10)) = true -> forall c, 48 <= c <= 57 -> P c = true.
Proof. intros H c Hc. rewrite forallb_forall in H. apply H, in_run. lia. Qed.

(** ** Replacements that change nothing *)
Lemma none_step k r f first rest : clear (stage_auto k []) [] r = true -> (forall s, changed k s = false) -> proper_text first rest ->
  replace_all r f (with_symbols (at_stage k) first rest) = with_symbols (at_stage (S k)) first rest.
Proof.
  intros Hc Hn. apply step_all with (apart := []) (H := []); auto.
  - apply forallb_forall. reflexivity.
  - intros s Hs. rewrite Hn in Hs. discriminate.
Qed.

(** ** Literal matches *)
Definition tr (q : nat) (k : cls) (q' : nat) : trans := (q, k, q').
(** The transitions for [w] from [q], through states from [q']. *)
Fixpoint line (q q' : nat) (w : str) (dst : nat) : list trans :=
  match w with
  | [] => []
  | [c] => [tr q (ch c) dst]
  | c :: w' => tr q (ch c) q' :: line q' (S q') w' dst
  end.
Lemma line_path A H : forall w q q' dst, w <> [] -> (forall t, In t (line q q' w dst) -> In t (au_trans A) /\ mem (fst (fst t)) H = false) -> Path A H q w dst.
Proof.
  induction w as [|c [|d w] IH]; intros q q' dst Hn Ht; [congruence| |].
  - destruct (Ht (tr q (ch c) dst)) as [H1 H2]; [left; reflexivity|]. econstructor; [exact H2|exact H1|apply in_ch|constructor].
  - destruct (Ht (tr q (ch c) q')) as [H1 H2]; [left; reflexivity|]. econstructor; [exact H2|exact H1|apply in_ch|]. apply (IH q' (S q') dst); [discriminate|]. intros t Hi. apply Ht. right. exact Hi.
Qed.
Section Literal.
(** A symbol [src] between blanks; the match is [w], after [p] and before [t]. *)
Variables (k : nat) (r : re) (f : hit -> str) (H : list nat) (p w t w' : str) (dst : symbol).
Let apart := line 60 61 (p ++ w ++ t) 8.
Hypothesis lit_clear : clear (stage_auto k apart) H r = true.
Hypothesis lit_away : forallb (fun t => negb (mem (fst (fst t)) H)) (au_trans paragraph ++ ends 20 ++ pool k (changed k)) = true.
Hypothesis lit_final : forallb (fun q => negb (mem q H)) (au_final paragraph) = true.
Hypothesis lit_only : forall s, changed k s = true -> s = dst.
Hypothesis lit_src : (32 :: at_stage k dst) ++ [32] = p ++ w ++ t.
Hypothesis lit_dst : (32 :: at_stage (S k) dst) ++ [32] = p ++ w' ++ t.
Variables q1 q2 : nat.
Hypothesis lit_w : w <> [].
Hypothesis lit_p : Path (stage_auto k apart) H 60 p q1.
Hypothesis lit_m : Path (stage_auto k apart) [] q1 w q2.
Hypothesis lit_t : Path (stage_auto k apart) H q2 t 8.
Hypothesis lit_match : forall b v, exists s, match_at r (rev p ++ b) (w ++ t ++ v) = Some s /\ m_after s = t ++ v /\ f (mk_hit w (m_caps s)) = w'.
Lemma literal_step first rest : proper_text first rest -> replace_all r f (with_symbols (at_stage k) first rest) = with_symbols (at_stage (S k)) first rest.
Proof.
  intros Hp. apply step_all with (apart := apart) (H := H); auto. intros s Hs Hq. apply lit_only in Hs. subst s. rewrite lit_src, lit_dst. eapply hit_step; eauto.
Qed.
End Literal.
Ltac in_line := let t := fresh "t" in let Ht := fresh "Ht" in intros t Ht; split; [apply apart_in; vm_compute in Ht |- *; tauto|vm_compute in Ht; repeat destruct Ht as [<-|Ht]; try reflexivity; destruct Ht].
Ltac the_only := let s := fresh "s" in intros s; destruct s; try discriminate; intros _; reflexivity.
Ltac line_by x0 := apply line_path with (q' := x0); [discriminate|in_line].
Ltac literal x0 p w t w' dst x1 x2 :=
  intros Hp; eapply (literal_step _ _ _ x0 p w t w' dst) with (q1 := x1) (q2 := x2);
  [vm_compute; reflexivity|vm_compute; reflexivity|vm_compute; reflexivity|the_only|reflexivity|reflexivity|discriminate|..|exact Hp].
Ltac plain_match := let b := fresh "b" in let v := fresh "v" in intros b v; eexists; split; [vm_compute; reflexivity|split; reflexivity].

Lemma step_half first rest : proper_text first rest -> replace_tmpl (rx_re GL_HALF) (u "&#189;") (with_symbols (at_stage 17) first rest) = with_symbols (at_stage 18) first rest.
Proof. literal [61%nat] (u " ") (u "(1/2)") (u " ") (u "&#189;") Half 61%nat 66%nat; [line_by 61%nat|line_by 62%nat|line_by 67%nat|plain_match]. Qed.
Lemma step_quarter first rest : proper_text first rest -> replace_tmpl (rx_re GL_QUARTER) (u "&#188;") (with_symbols (at_stage 18) first rest) = with_symbols (at_stage 19) first rest.
Proof. literal [61%nat] (u " ") (u "(1/4)") (u " ") (u "&#188;") Quarter 61%nat 66%nat; [line_by 61%nat|line_by 62%nat|line_by 67%nat|plain_match]. Qed.
Lemma step_three_quarters first rest : proper_text first rest -> replace_tmpl (rx_re GL_3QUARTER) (u "&#190;") (with_symbols (at_stage 19) first rest) = with_symbols (at_stage 20) first rest.
Proof. literal [61%nat] (u " ") (u "(3/4)") (u " ") (u "&#190;") ThreeQuarters 61%nat 66%nat; [line_by 61%nat|line_by 62%nat|line_by 67%nat|plain_match]. Qed.
Lemma step_degree first rest : proper_text first rest -> replace_tmpl (rx_re GL_DEGREE) (u "&#176;") (with_symbols (at_stage 20) first rest) = with_symbols (at_stage 21) first rest.
Proof. literal [61%nat] (u " ") (u "(o)") (u " ") (u "&#176;") Degree 61%nat 64%nat; [line_by 61%nat|line_by 62%nat|line_by 65%nat|plain_match]. Qed.
Lemma step_plus_minus first rest : proper_text first rest -> replace_tmpl (rx_re GL_PLUSMINUS) (u "&#177;") (with_symbols (at_stage 21) first rest) = with_symbols (at_stage 22) first rest.
Proof. literal [61%nat] (u " ") (u "(+/-)") (u " ") (u "&#177;") PlusMinus 61%nat 66%nat; [line_by 61%nat|line_by 62%nat|line_by 67%nat|plain_match]. Qed.
Lemma step_en_dash first rest : proper_text first rest -> replace_tmpl (rx_re GL_ENDASH) (u " &#8211; ") (with_symbols (at_stage 13) first rest) = with_symbols (at_stage 14) first rest.
Proof. literal [60%nat] (u "") (u " - ") (u "") (u " &#8211; ") EnDash 60%nat 8%nat; [constructor|line_by 61%nat|constructor|plain_match]. Qed.
(** Groups of a match. *)
Lemma group_1 w cs t : cap_text 1 cs = Some t -> group_text (u "1") (mk_hit w cs) = t.
Proof. intros H. exact (group_cap 1 (mk_hit w cs) t H (or_introl eq_refl)). Qed.
Lemma group_2 w cs t : cap_text 2 cs = Some t -> group_text (u "2") (mk_hit w cs) = t.
Proof. intros H. exact (group_cap 2 (mk_hit w cs) t H (or_intror (or_introl eq_refl))). Qed.
Lemma cap_is (n : nat) (cs : caps) (a r : str) : find_cap n cs = Some (a ++ r, r) -> cap_text n cs = Some a.
Proof. intros H. unfold cap_text. rewrite H. cbn [option_map]. rewrite cap_str_app. reflexivity. Qed.
Lemma step_em_dash first rest : proper_text first rest -> replace_tmpl (rx_re GL_EMDASH) (u "$1&#8212;$2") (with_symbols (at_stage 12) first rest) = with_symbols (at_stage 13) first rest.
Proof.
  literal [60%nat; 61%nat] (u "") (u " -- ") (u "") (u " &#8212; ") EmDash 60%nat 8%nat; [constructor|line_by 61%nat|constructor|].
  intros b v. eexists. split; [vm_compute; reflexivity|split; [reflexivity|]]. cbn [m_caps].
  match goal with |- expand _ ?h = _ => change (expand (u "$1&#8212;$2") h) with (group_text (u "1") h ++ u "&#8212;" ++ group_text (u "2") h ++ []) end.
  erewrite group_1, group_2; [|eapply (cap_is _ _ [32]); reflexivity|eapply (cap_is _ _ [32]); reflexivity]. reflexivity.
Qed.
Ltac paren_match tmpl code := let b := fresh "b" in let v := fresh "v" in intros b v;
  match goal with |- context [match_at (rx_re ?x) _ ?y] => let r := eval vm_compute in (rx_re x) in change (rx_re x) with r end;
  unfold match_at; rewrite m_seq, m_group, m_alt, m_seq, m_assert;
  match goal with |- context [assert_holds WB ?x ?y] => destruct (assert_holds WB x y) end;
  (eexists; split; [vm_compute; reflexivity|split; [reflexivity|]]; cbn [m_caps];
   match goal with |- expand _ ?h = _ => change (expand tmpl h) with (group_text (u "1") h ++ code) end;
   erewrite group_1; [|eapply (cap_is _ _ [32]); reflexivity]; reflexivity).
Lemma step_tm first rest : proper_text first rest -> replace_tmpl (rx_re GL_TM) (u "$1&#8482;") (with_symbols (at_stage 14) first rest) = with_symbols (at_stage 15) first rest.
Proof.
  literal [60%nat; 61%nat] (u "") (u " (tm)") (u " ") (u " &#8482;") Trademark 60%nat 65%nat; [constructor|line_by 61%nat|line_by 66%nat|paren_match (u "$1&#8482;") (u "&#8482;")].
Qed.
Lemma step_reg first rest : proper_text first rest -> replace_tmpl (rx_re GL_REG) (u "$1&#174;") (with_symbols (at_stage 15) first rest) = with_symbols (at_stage 16) first rest.
Proof.
  literal [60%nat; 61%nat] (u "") (u " (r)") (u " ") (u " &#174;") Registered 60%nat 64%nat; [constructor|line_by 61%nat|line_by 65%nat|paren_match (u "$1&#174;") (u "&#174;")].
Qed.
Lemma step_copy first rest : proper_text first rest -> replace_tmpl (rx_re GL_COPY) (u "$1&#169;") (with_symbols (at_stage 16) first rest) = with_symbols (at_stage 17) first rest.
Proof.
  literal [60%nat; 61%nat] (u "") (u " (c)") (u " ") (u " &#169;") Copyright 60%nat 64%nat; [constructor|line_by 61%nat|line_by 65%nat|paren_match (u "$1&#169;") (u "&#169;")].
Qed.
(** The replacements that no symbol needs. *)
Ltac nothing := intros Hp; apply none_step; [vm_compute; reflexivity|intros s; destruct s; reflexivity|exact Hp].
Lemma step_sopenb t first rest : proper_text first rest -> replace_tmpl (rx_re GL_SOPENB) t (with_symbols (at_stage 4) first rest) = with_symbols (at_stage 5) first rest.
Proof. nothing. Qed.
Lemma step_dopenb t first rest : proper_text first rest -> replace_tmpl (rx_re GL_DOPENB) t (with_symbols (at_stage 7) first rest) = with_symbols (at_stage 8) first rest.
Proof. nothing. Qed.
Lemma step_amp_again t first rest : proper_text first rest -> replace_tmpl (rx_re GL_AMP) t (with_symbols (at_stage 11) first rest) = with_symbols (at_stage 12) first rest.
Proof. nothing. Qed.
Lemma step_acronym t first rest : proper_text first rest -> replace_tmpl (rx_re GL_ACRONYM) t (with_symbols (at_stage 22) first rest) = with_symbols (at_stage 23) first rest.
Proof. nothing. Qed.
Lemma step_dyn t first rest : proper_text first rest -> replace_tmpl (rx_re DYN_3PLUS_RE) t (with_symbols (at_stage 23) first rest) = with_symbols (at_stage 24) first rest.
Proof. nothing. Qed.
