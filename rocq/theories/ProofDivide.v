(** The division of texts into blocks. *)
From Verif Require Import Str Unicode Regex RegexParse RegexSnips RegexTheory RegexAuto RegexGroups Lib ModelBase ModelHtml ModelUrl
  ModelAttrs ModelInline ModelParser SpecRegex ProofRegex SpecParse ProofParse ProofLinks ProofDoc SpecPlain SpecNewlines ProofNewlines ProofParas ProofTags ProofSections SpecDivide.
#[local] Arguments u : simpl never.
Notation R := (rx_re MULTI_ENDLINE_RE).
Definition starts_line (t : str) : Prop := match t with d :: _ => d <> 10 | [] => True end.
Lemma gap_at before n t : starts_line t -> exists s, match_at R before ((10 :: 10 :: repeat 10 n) ++ t) = Some s /\ m_after s = t /\ cap_text 1 (m_caps s) = Some (10 :: 10 :: repeat 10 n).
Proof.
  intros H. eexists (mk_mst _ t [(1%nat, ((10 :: 10 :: repeat 10 n) ++ t, t))]). split; [|split; [reflexivity|]].
  - unfold match_at. cbn [app]. rewrite multi_shape, m_group, !m_seq, m_cls, in_one. cbn [N.eqb Pos.eqb]. rewrite m_cls, in_one. cbn [N.eqb Pos.eqb]. apply m_star_greedy.
    + apply forallb_forall. intros c Hc. apply repeat_spec in Hc. subst. reflexivity.
    + destruct t as [|d t]; [exact I|]. cbn [stops]. rewrite in_one. apply N.eqb_neq. exact H.
    + cbn [m_before m_after m_caps]. reflexivity.
  - unfold cap_text. cbn [m_caps find_cap Nat.eqb option_map]. f_equal. apply (cap_str_app (10 :: 10 :: repeat 10 n)).
Qed.
Lemma pass p before rest last : unbroken p -> ~ ends_line p \/ rest = [] -> exists last', scan R before (p ++ rest) O last = map Lit p ++ scan R (rev p ++ before) rest O last'.
Proof.
  intros Hp He. destruct p as [|x p]; [exists last; reflexivity|]. exists false. apply scan_pass; [discriminate|]. intros a c b E. apply multi_none_at. destruct (N.eq_dec c 10) as [->|Hc]; [right|left; exact Hc].
  destruct b as [|d b]; [|cbn [app]; intros ->; exact (Hp a b E)]. cbn [app]. destruct He as [He|He]; [|subst; exact I]. exfalso. apply He. exists a. exact E.
Qed.
Lemma turn_starts l : in_turn false l -> starts_line (List.concat l).
Proof.
  destruct l as [|p l]; [intros []|]. cbn [in_turn List.concat]. intros [_ H]. destruct l as [|g l].
  - rewrite app_nil_r. destruct (H eq_refl) as [->|(c & r & -> & Hc)]; [exact I|exact Hc].
  - destruct H as [H _]. destruct (H eq_refl) as (c & r & -> & Hc). exact Hc.
Qed.
Lemma turn_split : forall n l first before last, (List.length l <= n)%nat -> in_turn first l -> split_go 2 (scan R before (List.concat l) O last) [] = Some l.
Proof.
  induction n as [|n IH]; intros l first before last Hn H; [destruct l; [destruct H|cbn in Hn; lia]|]. destruct l as [|p l]; [destruct H|]. cbn [in_turn List.concat] in *. destruct H as [Hp H]. destruct l as [|g l].
  - cbn [List.concat]. destruct (pass p before [] last Hp (or_intror eq_refl)) as (l' & ->). rewrite scan_nil. replace (match_at R (rev p ++ before) []) with (@None mst) by reflexivity.
    rewrite split_go_lits. destruct l'; cbn [split_go]; rewrite app_nil_r, rev_involutive; reflexivity.
  - destruct H as (_ & He & (k & ->) & Hl). cbn [List.concat]. destruct (pass p before ((10 :: 10 :: repeat 10 k) ++ List.concat l) last Hp (or_introl He)) as (l' & ->). rewrite split_go_lits.
    destruct (gap_at (rev p ++ before) k (List.concat l) (turn_starts l Hl)) as (st & Em & Ea & C1).
    rewrite (scan_take _ _ (10 :: 10 :: repeat 10 k) (List.concat l) st) by (auto; discriminate). rewrite split_hit.
    replace (group_texts 2 (mk_hit_of ((10 :: 10 :: repeat 10 k) ++ List.concat l) st)) with [Some (10 :: 10 :: repeat 10 k)].
    2:{ unfold group_texts, mk_hit_of. cbn [seq map h_caps Nat.sub]. rewrite C1. reflexivity. }
    cbn [forallb is_some andb]. rewrite (IH l false) by (auto; cbn in Hn; lia). rewrite app_nil_r, rev_involutive. reflexivity.
Qed.
(** Every text has such a division. *)
Lemma first_pair t : unbroken t \/ exists p r, t = p ++ 10 :: 10 :: r /\ unbroken p /\ ~ ends_line p.
Proof.
  induction t as [|c t IH]; [left; intros [|? a] b; discriminate|]. destruct IH as [H|(p & r & -> & Hp & He)].
  - destruct t as [|d t]; [left; intros [|? [|]] b; discriminate|]. destruct (N.eq_dec c 10) as [->|Hc]; [destruct (N.eq_dec d 10) as [->|Hd]|].
    + right. exists [], t. split; [reflexivity|]. split; [intros [|? a] b; discriminate|]. intros ([|? r] & F); discriminate.
    + left. intros [|x a] b E; [injection E as E _; congruence|]. injection E as _ E. exact (H a b E).
    + left. intros [|x a] b E; [injection E as E _; congruence|]. injection E as _ E. exact (H a b E).
  - destruct p as [|d p].
    + destruct (N.eq_dec c 10) as [->|Hc]; right.
      * exists [], (10 :: r). split; [reflexivity|]. split; [intros [|? a] b; discriminate|]. intros ([|? r0] & F); discriminate.
      * exists [c], r. split; [reflexivity|]. split; [intros [|? [|]] b; discriminate|]. intros ([|? [|]] & F); [injection F as F; congruence|discriminate|discriminate].
    + destruct (N.eq_dec c 10) as [->|Hc]; [destruct (N.eq_dec d 10) as [->|Hd]|]; right.
      * exists [], (p ++ 10 :: 10 :: r). split; [reflexivity|]. split; [intros [|? a] b; discriminate|]. intros ([|? r0] & F); discriminate.
      * exists (10 :: d :: p), r. split; [reflexivity|]. split; [intros [|x a] b E; [injection E as E _; congruence|injection E as _ E; exact (Hp a b E)]|]. intros ([|x q] & F); [discriminate|]. injection F as _ F. apply He. exists q. exact F.
      * exists (c :: d :: p), r. split; [reflexivity|]. split; [intros [|x a] b E; [injection E as E _; congruence|injection E as _ E; exact (Hp a b E)]|]. intros ([|x q] & F); [discriminate|]. injection F as _ F. apply He. exists q. exact F.
Qed.
Lemma newline_run t : exists n r, t = repeat 10 n ++ r /\ starts_line r.
Proof.
  induction t as [|c t (n & r & E & H)]; [exists O, []; split; [reflexivity|exact I]|]. destruct (N.eq_dec c 10) as [->|Hc]; [exists (S n), r; subst; split; [reflexivity|exact H]|exists O, (c :: t); split; [reflexivity|exact Hc]].
Qed.
Lemma starts_opens t : starts_line t -> t = [] \/ opens_line t.
Proof. destruct t as [|c t]; [left; reflexivity|right; exists c, t; auto]. Qed.
Lemma turn_exists : forall n first t, (List.length t <= n)%nat -> (first = false -> starts_line t) -> exists l, in_turn first l /\ List.concat l = t.
Proof.
  induction n as [|n IH]; intros first t Hn Hf.
  { destruct t; [|cbn in Hn; lia]. exists [[]]. split; [|reflexivity]. split; [intros [|? a] b; discriminate|]. intros _. left. reflexivity. }
  destruct (first_pair t) as [H|(p & r & -> & Hp & He)].
  - exists [t]. split; [|cbn [List.concat]; apply app_nil_r]. split; [exact H|]. intros F. apply starts_opens, Hf, F.
  - destruct (newline_run r) as (k & z & -> & Hz). destruct (IH false z) as (l & Hl & El); [rewrite !app_length in Hn; cbn [List.length] in Hn; rewrite app_length in Hn; lia|intros _; exact Hz|].
    exists (p :: (10 :: 10 :: repeat 10 k) :: l). split; [|cbn [List.concat]; rewrite El; reflexivity]. split; [exact Hp|]. split; [|split; [exact He|split; [exists k; reflexivity|exact Hl]]].
    intros F. specialize (Hf F). destruct p as [|c p]; [exfalso; apply Hf; reflexivity|]. exists c, p. split; [reflexivity|exact Hf].
Qed.
Lemma divided t s : exists l, splitM MULTI_ENDLINE_RE t s = Ret l s /\ in_turn true l /\ List.concat l = t.
Proof.
  destruct (turn_exists (List.length t) true t (le_n _) ltac:(discriminate)) as (l & H & E). exists l. split; [|split; [exact H|exact E]].
  unfold splitM, split_rx, segs. change (rx_len MULTI_ENDLINE_RE) with 2%nat. rewrite <- E. rewrite (turn_split (List.length l) l true [] false (le_n _) H). reflexivity.
Qed.
Lemma division_unique l l' : in_turn true l -> in_turn true l' -> List.concat l = List.concat l' -> l = l'.
Proof.
  intros H H' E. pose proof (turn_split _ l true [] false (le_n _) H) as A. pose proof (turn_split _ l' true [] false (le_n _) H') as B. rewrite E in A. rewrite A in B. congruence.
Qed.
