(** Documents of one paragraph with spans. *)
From Verif Require Import Str Unicode Regex RegexParse RegexSnips RegexTheory RegexAuto RegexGroups Lib ModelBase ModelHtml ModelUrl
  ModelAttrs ModelInline ModelParser SpecRegex ProofRegex SpecParse ProofParse Logic ProofWalk ProofState SpecState ProofMemory ProofCache ProofLinks ProofDoc
  SpecPlain ProofPlain SpecNewlines ProofNewlines ProofParas ProofTags ProofSections ProofBlocks ProofStateEx SpecDoc ProofDocument SpecText ProofText ProofWeave ProofSpan ProofSpanRe ProofSpanText SpecSpans.
#[local] Arguments u : simpl never.

(** ** Pieces *)
Definition odd_cls : cls := one_of (91 :: 123 :: u "*_%+~^").
Definition calm_re : list re :=
  [RCls odd_cls; RSeq (RAssert SOT) (RCls (ProofParse.one 45)); RSeq (RBack before_cls) (RCls (ProofParse.one 45)); RSeq (RCls (ProofParse.one 63)) (RCls (ProofParse.one 63))].
Lemma calm_of A t : forallb (never A) calm_re = true -> accepts A t -> calm t.
Proof.
  intros HA Ht a x b E. assert (forall r, In r calm_re -> no_match r t) as N by (intros r Hr; eapply never_in; eauto).
  destruct (free x) eqn:Ef; [left; reflexivity|]. right. unfold free in Ef. apply negb_false_iff, among_in in Ef.
  assert (in_cls odd_cls x = false) as Ho.
  { specialize (N _ (or_introl eq_refl) a (x :: b) E). unfold match_at in N. rewrite m_cls in N. destruct (in_cls odd_cls x); [discriminate|reflexivity]. }
  cbn [In mark_chars] in Ef. repeat (destruct Ef as [Ef|Ef]; [try (subst x; vm_compute in Ho; discriminate)|]); [| |destruct Ef].
  - right. split; [symmetry; exact Ef|]. destruct b as [|y b]; [exact I|]. intros ->. specialize (N _ (or_intror (or_intror (or_intror (or_introl eq_refl)))) a (x :: 63 :: b) E). unfold match_at in N.
    rewrite m_seq, m_cls, in_one, <- Ef, m_cls, in_one in N. discriminate.
  - left. split; [symmetry; exact Ef|]. destruct a as [|d a] using rev_ind.
    + specialize (N _ (or_intror (or_introl eq_refl)) [] (x :: b) E). unfold match_at in N. rewrite m_seq, m_assert in N. cbn [rev assert_holds is_empty] in N. rewrite m_cls, in_one, <- Ef in N. discriminate.
    + exists a, d. split; [reflexivity|]. specialize (N _ (or_intror (or_intror (or_introl eq_refl))) (a ++ [d]) (x :: b) E). unfold match_at in N. rewrite rev_app_distr in N. cbn [rev app] in N. rewrite m_seq, m_back in N.
      destruct (in_cls before_cls d); [|reflexivity]. rewrite m_cls, in_one, <- Ef in N. discriminate.
Qed.
Lemma calm_before : forallb (never before_spans) calm_re = true. Proof. vm_compute. reflexivity. Qed.
Lemma calm_between : forallb (never between_spans) calm_re = true. Proof. vm_compute. reflexivity. Qed.
Lemma calm_after lite : forallb (never (tailed_of (after_spans lite))) calm_re = true. Proof. destruct lite; vm_compute; reflexivity. Qed.
Definition full_end : re := RSeq (RCls (mk_cls true [CRange 32 32; CRange 10 10])) (RAssert EOT).
Lemma closes_of t : no_match full_end t -> t = [] \/ closes t.
Proof.
  intros H. destruct t as [|d a] using rev_ind; [left; reflexivity|]. right. exists a, d. split; [reflexivity|]. specialize (H a [d] eq_refl). unfold match_at, full_end in H. rewrite m_seq, m_cls in H.
  destruct (in_cls _ d) eqn:E; [discriminate|]. unfold in_cls in E. cbn [c_neg c_items existsb in_item xorb] in E. rewrite !range_one in E. apply negb_false_iff in E. rewrite orb_false_r in E. apply orb_prop in E as [E|E]; apply N.eqb_eq in E; auto.
Qed.
Lemma closes_before a : accepts before_spans a -> a = [] \/ closes a.
Proof. intros H. apply closes_of. eapply never_ok; [exact H|]. vm_compute. reflexivity. Qed.
Lemma closes_between t : accepts between_spans t -> closes t.
Proof.
  intros H. destruct (closes_of t) as [->|Hc]; [eapply never_ok; [exact H|]; vm_compute; reflexivity| |exact Hc]. inversion H as [q Hf|]; subst. cbn in Hf. intuition discriminate.
Qed.
Lemma around_in q k q' : In (q, k, q') around -> (q = 20 \/ q = 21)%nat -> In (q, k, q') [(20, blank, 1); (20, newline, 1); (20, after_span, 21); (21, blank, 1); (21, newline, 1)]%nat.
Proof.
  unfold around. rewrite in_app_iff. intros [H|H] Hq; [exfalso|exact H]. assert (forallb (fun tr => negb (Nat.eqb (fst (fst tr)) 20 || Nat.eqb (fst (fst tr)) 21)) (au_trans paragraph) = true) as F by (vm_compute; reflexivity).
  rewrite forallb_forall in F. specialize (F _ H). cbn [fst] in F. destruct Hq as [-> | ->]; discriminate.
Qed.
Lemma blank_is c : in_cls blank c = true -> c = 32.
Proof. unfold blank, in_cls. cbn [c_neg c_items existsb in_item xorb]. rewrite range_one, orb_false_r. intros H. apply N.eqb_eq. destruct (c =? _); [reflexivity|discriminate]. Qed.
Lemma newline_is c : in_cls newline c = true -> c = 10.
Proof. unfold newline, in_cls. cbn [c_neg c_items existsb in_item xorb]. rewrite range_one, orb_false_r. intros H. apply N.eqb_eq. destruct (c =? _); [reflexivity|discriminate]. Qed.
Lemma after_span_is c : in_cls after_span c = true -> In c (u ",:;!.").
Proof.
  change (u ",:;!.") with [44; 58; 59; 33; 46]. unfold after_span, one_of, in_cls. change (u ",:;!.") with [44; 58; 59; 33; 46]. cbn [map c_neg c_items existsb in_item xorb]. rewrite !range_one. intros H. match type of H with (if ?b then _ else _) = _ => destruct b eqn:Hb; [clear H; rename Hb into H|discriminate] end.
  repeat (apply orb_prop in H as [H|H]; [apply N.eqb_eq in H; subst; cbn [In]; tauto|]). discriminate.
Qed.
Lemma follows_of A t z : au_trans A = around -> Suf A 20 t -> z = [] /\ ~ In 21%nat (au_final A) \/ z = nl ++ nl -> follows (t ++ z).
Proof.
  intros EA H Hz. inversion H as [q Hf|q k q' c t' Hi Hc Hs]; subst.
  - destruct Hz as [[-> _]| ->]; [left; reflexivity|]. right. left. exists 10, [10]. split; [reflexivity|auto].
  - rewrite EA in Hi. apply around_in in Hi; [|auto]. cbn [In] in Hi. destruct Hi as [E|[E|[E|[E|[E|[]]]]]]; try discriminate; injection E as <- <-.
    + apply blank_is in Hc as ->. right. left. cbn [app]. eauto.
    + apply newline_is in Hc as ->. right. left. cbn [app]. eauto.
    + apply after_span_is in Hc. right. right. inversion Hs as [q Hf|q k q' d t'' Hi Hd Hs']; subst.
      * destruct Hz as [[_ Hz]| ->]; [contradiction|]. exists c, 10, [10]. cbn [app]. auto.
      * rewrite EA in Hi. apply around_in in Hi; [|auto]. cbn [In] in Hi. destruct Hi as [E|[E|[E|[E|[E|[]]]]]]; try discriminate; injection E as <- <-.
        -- apply blank_is in Hd as ->. cbn [app]. exists c, 32, (t'' ++ z). auto.
        -- apply newline_is in Hd as ->. cbn [app]. exists c, 10, (t'' ++ z). auto.
Qed.
(** ** Marked words *)
Definition wide (k : cls) : bool := within k letter || within k digit.
Lemma wide_ok k c : wide k = true -> in_cls k c = true -> wchar c = true.
Proof. unfold wide, wchar. intros H Hc. apply orb_prop in H as [H|H]; rewrite (within_ok _ _ _ H Hc); rewrite ?orb_true_r; reflexivity. Qed.
Lemma marked_chars q w : Suf marked q w -> forallb (fun c => wchar c || (c =? 32)) w = true.
Proof.
  intros H. induction H as [q Hf|q k q' c t Hi Hc Hs IH]; [reflexivity|]. cbn [forallb]. rewrite IH, andb_true_r.
  assert (forallb (fun tr => wide (snd (fst tr)) || within (snd (fst tr)) blank) (au_trans marked) = true) as F by (vm_compute; reflexivity). rewrite forallb_forall in F. specialize (F _ Hi). cbn [fst snd] in F.
  apply orb_prop in F as [F|F]; [rewrite (wide_ok _ _ F Hc); reflexivity|]. apply (within_ok _ _ _ F) in Hc. apply blank_is in Hc as ->. apply orb_true_r.
Qed.
Lemma marked_last q w : Suf marked q w -> w = [] \/ exists v y, w = v ++ [y] /\ wchar y = true.
Proof.
  intros H. induction H as [q Hf|q k q' c t Hi Hc Hs IH]; [left; reflexivity|]. right. destruct IH as [->|(v & y & -> & Hy)]; [|exists (c :: v), y; auto]. exists [], c. split; [reflexivity|].
  inversion Hs as [q0 Hf|]; subst. assert (forallb (fun tr => implb (mem (snd tr) (au_final marked)) (wide (snd (fst tr)))) (au_trans marked) = true) as F by (vm_compute; reflexivity).
  rewrite forallb_forall in F. specialize (F _ Hi). cbn [fst snd] in F. rewrite (proj2 (mem_in _ _) Hf) in F. exact (wide_ok _ _ F Hc).
Qed.
Lemma marked_word w : accepts marked w -> word_text w.
Proof.
  intros H. pose proof (marked_chars _ _ H) as Hc. pose proof (marked_last _ _ H) as Hl. inversion H as [q Hf|q k q' x v Hi Hx Hs]; subst; [cbn in Hf; intuition discriminate|].
  assert (wchar x = true) as Hw.
  { assert (forallb (fun tr => implb (Nat.eqb (fst (fst tr)) 40) (wide (snd (fst tr)))) (au_trans marked) = true) as F by (vm_compute; reflexivity). rewrite forallb_forall in F. specialize (F _ Hi). cbn [fst snd marked au_start Nat.eqb] in F. exact (wide_ok _ _ F Hx). }
  destruct Hl as [Hl|(v' & y & Hl & Hy)]; [discriminate|]. destruct (in_dec N.eq_dec 32 (x :: v)) as [Hb|Hb].
  - right. destruct v' as [|x' v']; [injection Hl as -> ->; destruct Hb as [->|[]]; vm_compute in Hy; discriminate|]. cbn [app] in Hl. injection Hl as <- ->. exists x, v', y. split; [reflexivity|]. split; [exact Hw|]. split; [exact Hy|].
    cbn [forallb] in Hc. apply andb_prop in Hc as [_ Hc]. rewrite forallb_app in Hc. apply andb_prop in Hc as [Hc _]. split; [exact Hc|]. destruct Hb as [->|Hb]; [vm_compute in Hw; discriminate|]. apply in_app_or in Hb as [Hb|[->|[]]]; [exact Hb|vm_compute in Hy; discriminate].
  - left. split; [discriminate|]. apply forallb_forall. intros c Hi'. rewrite forallb_forall in Hc. specialize (Hc c Hi'). apply orb_prop in Hc as [Hc|Hc]; [exact Hc|]. apply N.eqb_eq in Hc. subst. contradiction.
Qed.

(** ** The paragraph by the numbers of its marks *)
Definition marking_of (o : nat * str * str) : marking := let '(k, w, t) := o in mk_marking (mark_of k) (tag_of k) w t.
Fixpoint numbered (lite : bool) (os : list (nat * str * str)) : Prop :=
  match os with
  | [] => False
  | [(k, w, t)] => (k < 10)%nat /\ accepts marked w /\ accepts (after_spans lite) t
  | (k, w, t) :: os' => (k < 10)%nat /\ accepts marked w /\ accepts between_spans t /\ numbered lite os'
  end.
Lemma spans_index m t : In (m, t) spans -> exists k, (k < 10)%nat /\ mark_of k = m /\ tag_of k = t.
Proof.
  intros H. unfold spans in H. cbn [In] in H.
  destruct H as [H|H]; [injection H as <- <-; exists 0%nat; split; [lia|split; reflexivity]|].
  destruct H as [H|H]; [injection H as <- <-; exists 1%nat; split; [lia|split; reflexivity]|].
  destruct H as [H|H]; [injection H as <- <-; exists 2%nat; split; [lia|split; reflexivity]|].
  destruct H as [H|H]; [injection H as <- <-; exists 3%nat; split; [lia|split; reflexivity]|].
  destruct H as [H|H]; [injection H as <- <-; exists 4%nat; split; [lia|split; reflexivity]|].
  destruct H as [H|H]; [injection H as <- <-; exists 5%nat; split; [lia|split; reflexivity]|].
  destruct H as [H|H]; [injection H as <- <-; exists 6%nat; split; [lia|split; reflexivity]|].
  destruct H as [H|H]; [injection H as <- <-; exists 7%nat; split; [lia|split; reflexivity]|].
  destruct H as [H|H]; [injection H as <- <-; exists 8%nat; split; [lia|split; reflexivity]|].
  destruct H as [H|H]; [injection H as <- <-; exists 9%nat; split; [lia|split; reflexivity]|].
  destruct H.
Qed.
Lemma numbered_of lite l : spans_follow lite l -> exists os, l = map marking_of os /\ numbered lite os.
Proof.
  induction l as [|[m tg w t] l IH]; intros H; [destruct H|]. destruct l as [|x l].
  - destruct H as (H1 & H2 & H3). cbn [k_mark k_tag k_text k_after] in *. destruct (spans_index _ _ H1) as (k & Hk & <- & <-). exists [(k, w, t)]. split; [reflexivity|]. cbn [numbered]. auto.
  - destruct H as (H1 & H2 & H3 & H4). cbn [k_mark k_tag k_text k_after] in *. destruct (spans_index _ _ H1) as (k & Hk & <- & <-). destruct (IH H4) as (os & E & Ho). exists ((k, w, t) :: os). split; [cbn [map marking_of]; rewrite E; reflexivity|].
    destruct os as [|o os]; [discriminate|]. cbn [numbered]. auto.
Qed.
Fixpoint add_tail (z : str) (os : list (nat * str * str)) : list (nat * str * str) :=
  match os with
  | [] => []
  | [(k, w, t)] => [(k, w, t ++ z)]
  | o :: os' => o :: add_tail z os'
  end.
Lemma spans_text_render T a os : spans_text a (map marking_of os) = a ++ render T (marked_text os).
Proof.
  unfold spans_text. f_equal. unfold render, marked_text. induction os as [|[[k w] t] os IH]; [reflexivity|]. cbn [map marking_of flat_map fst snd item_text k_mark k_text k_after]. rewrite IH, <- !app_assoc. reflexivity.
Qed.
Lemma render_tail T z os : os <> [] -> render T (marked_text (add_tail z os)) = render T (marked_text os) ++ z.
Proof.
  intros H. unfold render, marked_text. induction os as [|[[k w] t] os IH]; [congruence|]. destruct os as [|o os]; [cbn [add_tail map flat_map fst snd app]; rewrite !app_nil_r, <- app_assoc; reflexivity|].
  change (add_tail z ((k, w, t) :: o :: os)) with ((k, w, t) :: add_tail z (o :: os)). cbn [map flat_map]. rewrite IH by discriminate. cbn [map flat_map]. rewrite <- !app_assoc. reflexivity.
Qed.
Definition tail_of (lite : bool) : str := if lite then [] else nl ++ nl.
Lemma accepts_tailed A t : accepts A t -> accepts (tailed_of A) t /\ accepts (tailed_of A) (t ++ nl ++ nl).
Proof. exact (fam_tailed A t). Qed.
Lemma numbered_flow lite os : numbered lite os -> flow 0 (marked_text (add_tail (tail_of lite) os)).
Proof.
  induction os as [|[[k w] t] os IH]; intros H; [destruct H|]. destruct os as [|o os].
  - destruct H as (H1 & H2 & H3). cbn [add_tail marked_text map flow fst snd item_ok]. split; [split; [lia|apply marked_word; exact H2]|]. split; [|split; [|split; [congruence|exact I]]].
    + apply (calm_of _ _ (calm_after lite)). destruct (accepts_tailed _ _ H3) as [T1 T2]. unfold tail_of. destruct lite; [rewrite app_nil_r; exact T1|exact T2].
    + apply (follows_of (after_spans lite)); [reflexivity|exact H3|]. destruct lite; [left|right; reflexivity]. split; [reflexivity|]. cbn. intuition discriminate.
  - destruct H as (H1 & H2 & H3 & H4). specialize (IH H4). change (add_tail ?z ((k, w, t) :: o :: os)) with ((k, w, t) :: add_tail z (o :: os)). cbn [marked_text map flow fst snd item_ok]. split; [split; [lia|apply marked_word; exact H2]|].
    split; [apply (calm_of _ _ calm_between); exact H3|]. split; [|split; [|exact IH]].
    + pose proof (closes_between t H3) as Hc. inversion H3 as [q Hf|q c q' d t' Hi Hd Hs]; subst; [cbn in Hf; intuition discriminate|].
      pose proof (follows_of between_spans (d :: t') [] eq_refl H3) as Q. rewrite app_nil_r in Q. apply Q. left. split; [reflexivity|]. cbn. intuition discriminate.
    + intros _. apply closes_between. exact H3.
Qed.

(** ** The automata of whole paragraphs *)
Section Join.
Variables (lite : bool) (A : auto).
Hypothesis around_A : incl around (au_trans A).
Hypothesis final_A : incl (au_final (after_spans lite)) (au_final A).
Definition item_reads (x : str) : Prop := forall f rest, In f [0; 1; 8]%nat -> Suf A 20 rest -> Suf A f (x ++ rest).
Fixpoint joins (l : list (str * str)) : Prop :=
  match l with
  | [] => False
  | [(x, t)] => item_reads x /\ accepts (after_spans lite) t
  | (x, t) :: l' => item_reads x /\ accepts between_spans t /\ joins l'
  end.
Definition glue (l : list (str * str)) : str := flat_map (fun p => fst p ++ snd p) l.
Lemma joined l : joins l -> forall f, In f [0; 1; 8]%nat -> Suf A f (glue l).
Proof.
  induction l as [|[x t] l IH]; intros H f Hf; [destruct H|]. unfold glue. cbn [flat_map fst snd]. fold (glue l). rewrite <- app_assoc. destruct l as [|y l].
  - destruct H as [H1 H2]. apply H1; [exact Hf|]. apply (ProofParas.tail_ok (after_spans lite)); [exact H2|exact around_A|]. intros g Hg. constructor. apply final_A. exact Hg.
  - destruct H as (H1 & H2 & H3). apply H1; [exact Hf|]. apply (ProofParas.tail_ok between_spans); [exact H2|exact around_A|]. intros g Hg. apply IH; [exact H3|]. cbn in *. tauto.
Qed.
Lemma joined_all a l : accepts before_spans a -> joins l -> Suf A 0 (a ++ glue l).
Proof. intros Ha H. apply (ProofParas.tail_ok before_spans); [exact Ha|exact around_A|]. intros g Hg. apply joined; [exact H|exact Hg]. Qed.
End Join.

Definition mark_cls : cls := one_of mark_chars.
(** With marks. *)
Definition spanned (lite : bool) : auto := mk_auto
  (around ++ au_trans marked
   ++ flat_map (fun q => [(q, mark_cls, 40); (q, mark_cls, 50)]) [0; 1; 8] ++ [(50, mark_cls, 40)]
   ++ flat_map (fun q => [(q, mark_cls, 20); (q, mark_cls, 52)]) [42; 43; 44; 45] ++ [(52, mark_cls, 20)])%nat
  0%nat (au_final (after_spans lite)).
(** With tokens. *)
Definition tokened (lite : bool) : auto := mk_auto
  (around ++ au_trans marked
   ++ flat_map (fun q => reads q 60 (u "textileRef:") 75) [0; 1; 8]
   ++ [(75, one_of id_chars, 75); (75, one_of (u ":"), 76); (76, digit, 77); (77, digit, 77)] ++ reads 77 80 (u ":ospan ") 40
   ++ flat_map (fun q => [(q, one_of (u " "), 90)]) [42; 43; 44; 45] ++ reads 90 91 (u "textileRef:") 105
   ++ [(105, one_of id_chars, 105); (105, one_of (u ":"), 106); (106, digit, 107); (107, digit, 107)] ++ reads 107 110 (u ":cspan") 20)%nat
  0%nat (au_final (after_spans lite)).
Definition plain_rx (lite noimage : bool) : list rx :=
  (if lite then [] else [SPECIAL_NOTEXTILE; SPECIAL_EQ; SPECIAL_CODE; SPECIAL_AT; SPECIAL_PRE; TABLE_RE; RC_PATTERN; LIST_RE])
  ++ (if noimage then [] else [IMAGE_RE]) ++ [SPECIAL_COMMENT; RESTRICTED_URLREF_RE; UNRESTRICTED_URLREF_RE; QUOTED_QUOTE_RE; SLICE_RE].
Lemma spanned_stage lite noimage : forallb (fun r => never (tailed_of (spanned lite)) (rx_re r)) (plain_rx lite noimage) = true.
Proof. destruct lite, noimage; vm_compute; reflexivity. Qed.
Lemma spanned_para lite : forallb (fun r => never (spanned lite) (rx_re r)) (para_rx lite) = true.
Proof. destruct lite; vm_compute; reflexivity. Qed.
Lemma spanned_small lite : forallb (never (spanned lite)) small_re = true.
Proof. destruct lite; vm_compute; reflexivity. Qed.
Lemma tokened_stage lite : forallb (fun r => never (tailed_of (tokened lite)) (rx_re r)) [FOOTNOTE_RE; NOTEREF_RE] = true.
Proof. destruct lite; vm_compute; reflexivity. Qed.
Lemma tokened_glyph lite : forallb (fun r => never (tokened lite) (rx_re r)) (GLYPH_RX ++ [DIVIDER_RE; UNWRAPPABLE_RE; WRAPPED_RE; PBR_BR_RE]) = true.
Proof. destruct lite; vm_compute; reflexivity. Qed.
Definition token_small : list re := [RCls (ch 60); RCls (ch 62); RCls (ch 38); RCls (ch 13); end_newline; start_cls space_cls; line_blank; nl_space; lit_re (u "::") (RCls (one_of [103]))].
Lemma tokened_small lite : forallb (never (tokened lite)) token_small = true.
Proof. destruct lite; vm_compute; reflexivity. Qed.
Lemma tokened_list lite : never (shown_of (tokened lite)) (rx_re TEXT_NOTELIST_RE) = true /\ never (shown_of (tokened lite)) (lit_re (u "::") (RCls (one_of [103]))) = true.
Proof. destruct lite; split; vm_compute; reflexivity. Qed.
Lemma incl_app_mid {B} (a b c : list B) : incl b c -> incl b (a ++ c).
Proof. intros H x Hx. apply in_or_app. right. apply H. exact Hx. Qed.
Lemma incl_here {B} (a b : list B) : incl a (a ++ b).
Proof. intros x Hx. apply in_or_app. left. exact Hx. Qed.
Lemma mark_in k c : (k < 10)%nat -> In c (mark_of k) -> in_cls mark_cls c = true.
Proof.
  intros Hk H. apply in_one_of. destruct (marks_good k Hk) as (H1 & _). unfold mark_of, mk in H. destruct (snd (mark_at k)); cbn [In] in H; intuition (subst; assumption).
Qed.
Lemma marks_two k : exists c, mark_of k = [c] \/ mark_of k = [c; c].
Proof. unfold mark_of, mk. exists (fst (mark_at k)). destruct (snd (mark_at k)); auto. Qed.
Lemma spanned_reads lite k w : (k < 10)%nat -> accepts marked w -> item_reads (spanned lite) (mark_of k ++ w ++ mark_of k).
Proof.
  intros Hk Hw f rest Hf Hr. rewrite <- !app_assoc.
  assert (M : forall f', In f' [42; 43; 44; 45]%nat -> Suf (spanned lite) f' (mark_of k ++ rest)).
  { intros f' Hf'. pose proof (mark_in k) as Hc. destruct (marks_two k) as (c & [E|E]); rewrite E in *; cbn [app].
    - eapply SufCons with (q' := 20%nat) (l := mark_cls); [|apply Hc; [exact Hk|left; reflexivity]|exact Hr]. unfold spanned. cbn [au_trans]. do 4 apply in_or_app, or_intror. apply in_or_app. left. apply in_flat_map. exists f'. split; [exact Hf'|left; reflexivity].
    - eapply SufCons with (q' := 52%nat) (l := mark_cls); [|apply Hc; [exact Hk|left; reflexivity]|].
      + unfold spanned. cbn [au_trans]. do 4 apply in_or_app, or_intror. apply in_or_app. left. apply in_flat_map. exists f'. split; [exact Hf'|right; left; reflexivity].
      + eapply SufCons with (q' := 20%nat) (l := mark_cls); [|apply Hc; [exact Hk|left; reflexivity]|exact Hr]. unfold spanned. cbn [au_trans]. do 5 apply in_or_app, or_intror. left. reflexivity. }
  assert (Suf (spanned lite) 40 (w ++ mark_of k ++ rest)) as W.
  { apply (ProofParas.tail_ok marked); [exact Hw| |exact M]. unfold spanned. cbn [au_trans]. apply incl_app_mid, incl_here. }
  pose proof (mark_in k) as Hc. revert W. generalize (w ++ mark_of k ++ rest). intros z W. destruct (marks_two k) as (c & [E|E]); rewrite E in *; cbn [app].
  - eapply SufCons with (q' := 40%nat) (l := mark_cls); [|apply Hc; [exact Hk|left; reflexivity]|exact W]. unfold spanned. cbn [au_trans]. do 2 apply in_or_app, or_intror. apply in_or_app. left. apply in_flat_map. exists f. split; [exact Hf|left; reflexivity].
  - eapply SufCons with (q' := 50%nat) (l := mark_cls); [|apply Hc; [exact Hk|left; reflexivity]|].
    + unfold spanned. cbn [au_trans]. do 2 apply in_or_app, or_intror. apply in_or_app. left. apply in_flat_map. exists f. split; [exact Hf|right; left; reflexivity].
    + eapply SufCons with (q' := 40%nat) (l := mark_cls); [|apply Hc; [exact Hk|left; reflexivity]|exact W]. unfold spanned. cbn [au_trans]. do 3 apply in_or_app, or_intror. apply in_or_app. left. left. reflexivity.
Qed.
Lemma reads_ok A q' rest : Suf A q' rest -> forall w q n, w <> [] -> incl (reads q n w q') (au_trans A) -> Suf A q (w ++ rest).
Proof.
  intros Hr. induction w as [|c w IH]; intros q n Hn Hi; [congruence|]. destruct w as [|d w].
  - cbn [app]. eapply SufCons; [apply Hi; left; reflexivity|apply in_one_of; left; reflexivity|exact Hr].
  - change ((c :: d :: w) ++ rest) with (c :: (d :: w) ++ rest). eapply SufCons; [apply Hi; left; reflexivity|apply in_one_of; left; reflexivity|]. apply (IH n (S n)); [discriminate|]. intros x Hx. apply Hi. right. exact Hx.
Qed.
Lemma loop_ok A q k w rest : In (q, k, q) (au_trans A) -> forallb (in_cls k) w = true -> Suf A q rest -> Suf A q (w ++ rest).
Proof. intros Hi Hw Hr. induction w as [|c w IH]; [exact Hr|]. cbn [forallb] in Hw. apply andb_prop in Hw as [Hc Hw]. cbn [app]. eapply SufCons; eauto. Qed.
Lemma id_in id : (forall c, In c id -> In c id_chars) -> forallb (in_cls (one_of id_chars)) id = true.
Proof. intros H. apply forallb_forall. intros c Hc. apply in_one_of. auto. Qed.
Lemma dec_digit i : exists c d, dec i = c :: d /\ in_cls digit c = true /\ forallb (in_cls digit) d = true.
Proof.
  destruct (dec_spec i) as (H1 & H2 & _). destruct (dec i) as [|c d]; [congruence|]. exists c, d. cbn [forallb] in H2. apply andb_prop in H2 as [Hc Hd].
  assert (forall x, is_digit_ascii x = true -> in_cls digit x = true) as Q.
  { intros x Hx. unfold is_digit_ascii in Hx. apply andb_prop in Hx as [X1 X2]. apply N.leb_le in X1, X2.
    assert (x = 48 \/ x = 49 \/ x = 50 \/ x = 51 \/ x = 52 \/ x = 53 \/ x = 54 \/ x = 55 \/ x = 56 \/ x = 57) as D by lia. repeat (destruct D as [-> |D]; [reflexivity|]). subst x. reflexivity. }
  repeat split; auto. rewrite forallb_forall in *. auto.
Qed.
Lemma tokened_reads T lite i w : simple_uid (t_uid T) -> accepts marked w -> item_reads (tokened lite) (item_text T (Tok i w)).
Proof.
  intros (id & Eu & Hid) Hw f rest Hf Hr. cbn [item_text]. unfold open_token, close_token. rewrite Eu, <- !app_assoc. apply id_in in Hid.
  assert (C : forall f', In f' [42; 43; 44; 45]%nat -> Suf (tokened lite) f' (u " " ++ u "textileRef:" ++ id ++ u ":" ++ dec (i + 1) ++ u ":cspan" ++ rest)).
  { intros f' Hf'. change (u " ") with [32]. cbn [app]. eapply SufCons with (q' := 90%nat) (l := one_of (u " ")); [|reflexivity|].
    { unfold tokened. cbn [au_trans]. do 5 apply in_or_app, or_intror. apply in_or_app. left. apply in_flat_map. exists f'. split; [exact Hf'|left; reflexivity]. }
    eapply (reads_ok _ 105%nat) with (n := 91%nat); [|discriminate|unfold tokened; cbn [au_trans]; do 6 apply incl_app_mid; apply incl_here].
    eapply loop_ok with (k := one_of id_chars); [unfold tokened; cbn [au_trans]; do 7 apply in_or_app, or_intror; apply in_or_app; left; left; reflexivity|exact Hid|].
    change (u ":") with [58]. cbn [app]. eapply SufCons with (q' := 106%nat) (l := one_of (u ":")); [unfold tokened; cbn [au_trans]; do 7 apply in_or_app, or_intror; apply in_or_app; left; right; left; reflexivity|reflexivity|].
    destruct (dec_digit (i + 1)) as (c & d & -> & Hc & Hd). cbn [app]. eapply SufCons with (q' := 107%nat) (l := digit); [unfold tokened; cbn [au_trans]; do 7 apply in_or_app, or_intror; apply in_or_app; left; right; right; left; reflexivity|exact Hc|].
    eapply loop_ok with (k := digit); [unfold tokened; cbn [au_trans]; do 7 apply in_or_app, or_intror; apply in_or_app; left; right; right; right; left; reflexivity|exact Hd|].
    eapply (reads_ok _ 20%nat) with (n := 110%nat); [exact Hr|discriminate|]. unfold tokened. cbn [au_trans]. do 8 apply incl_app_mid. apply incl_refl. }
  eapply (reads_ok _ 75%nat) with (n := 60%nat); [|discriminate|].
  2:{ intros x Hx. unfold tokened. cbn [au_trans]. do 2 apply in_or_app, or_intror. apply in_or_app. left. apply in_flat_map. exists f. split; [exact Hf|exact Hx]. }
  eapply loop_ok with (k := one_of id_chars); [unfold tokened; cbn [au_trans]; do 3 apply in_or_app, or_intror; apply in_or_app; left; left; reflexivity|exact Hid|].
  change (u ":") with [58] at 1. cbn [app]. eapply SufCons with (q' := 76%nat) (l := one_of (u ":")); [unfold tokened; cbn [au_trans]; do 3 apply in_or_app, or_intror; apply in_or_app; left; right; left; reflexivity|reflexivity|].
  destruct (dec_digit i) as (c & d & -> & Hc & Hd). cbn [app]. eapply SufCons with (q' := 77%nat) (l := digit); [unfold tokened; cbn [au_trans]; do 3 apply in_or_app, or_intror; apply in_or_app; left; right; right; left; reflexivity|exact Hc|].
  eapply loop_ok with (k := digit); [unfold tokened; cbn [au_trans]; do 3 apply in_or_app, or_intror; apply in_or_app; left; right; right; right; left; reflexivity|exact Hd|].
  eapply (reads_ok _ 40%nat) with (n := 80%nat); [|discriminate|unfold tokened; cbn [au_trans]; do 4 apply incl_app_mid; apply incl_here].
  apply (ProofParas.tail_ok marked); [exact Hw|unfold tokened; cbn [au_trans]; apply incl_app_mid, incl_here|exact C].
Qed.

(** ** The inline phase *)
Fixpoint zip (idx : list N) (os : list (nat * str * str)) : list tok :=
  match idx, os with i :: idx', (k, w, t) :: os' => (k, i, w, t) :: zip idx' os' | _, _ => [] end.
Fixpoint all_found (s : pstate) (l : list tok) : Prop := match l with [] => True | (k, i, _, _) :: l' => found s k i /\ all_found s l' end.
Lemma zip_of T s os l : Forall2 (tracks s) os l -> flow 10 l -> exists idx, List.length idx = List.length os /\ render T l = flat_map (raw_tok T) (zip idx os) /\ all_found s (zip idx os).
Proof.
  intros H. induction H as [|o [it t] os l Ho H IH]; intros Hf; [exists []; repeat split|]. cbn [flow] in Hf. destruct Hf as (F1 & _ & _ & _ & F2). destruct it as [k w|i w]; [destruct F1; lia|].
  destruct Ho as (k & -> & Hk). destruct (IH F2) as (idx & E1 & E2 & E3). exists (i :: idx). split; [cbn [List.length]; rewrite E1; reflexivity|]. split; [|split; [exact Hk|exact E3]].
  unfold render in *. cbn [zip flat_map fst snd raw_tok item_text]. rewrite E2, <- !app_assoc. reflexivity.
Qed.
Lemma zip_tail T z : forall os idx, os <> [] -> List.length idx = List.length (add_tail z os) -> flat_map (raw_tok T) (zip idx (add_tail z os)) = flat_map (raw_tok T) (zip idx os) ++ z.
Proof.
  induction os as [|[[k w] t] os IH]; intros idx Hn Hl; [congruence|]. destruct os as [|o os].
  - destruct idx as [|i [|]]; try discriminate. cbn [add_tail zip flat_map raw_tok]. rewrite !app_nil_r, <- !app_assoc. reflexivity.
  - change (add_tail z ((k, w, t) :: o :: os)) with ((k, w, t) :: add_tail z (o :: os)) in *. destruct idx as [|i idx]; [discriminate|]. cbn [zip flat_map]. rewrite IH by (try discriminate; cbn [List.length] in Hl; injection Hl as ->; reflexivity).
    rewrite <- app_assoc. reflexivity.
Qed.
Lemma add_tail_length z os : List.length (add_tail z os) = List.length os.
Proof. induction os as [|[[k w] t] os IH]; [reflexivity|]. destruct os as [|o os]; [reflexivity|]. change (add_tail z ((k, w, t) :: o :: os)) with ((k, w, t) :: add_tail z (o :: os)). cbn [List.length] in *. rewrite IH. reflexivity. Qed.
Lemma found_tail s z : forall os idx, all_found s (zip idx (add_tail z os)) -> all_found s (zip idx os).
Proof.
  induction os as [|[[k w] t] os IH]; intros idx H; [destruct idx; exact I|]. destruct os as [|o os].
  - destruct idx as [|i idx]; [exact I|]. cbn [add_tail zip all_found] in *. destruct idx; split; try apply H; exact I.
  - change (add_tail z ((k, w, t) :: o :: os)) with ((k, w, t) :: add_tail z (o :: os)) in *. destruct idx as [|i idx]; [exact I|]. cbn [zip all_found] in *. destruct H as [H1 H2]. split; [exact H1|]. apply IH. exact H2.
Qed.
Lemma numbered_ne lite os : numbered lite os -> os <> [].
Proof. intros H ->. exact H. Qed.
Section Inline.
Variables (W : world) (T : textile).
Hypothesis uid_simple : simple_uid (t_uid T).
Hypothesis depth : 1 <= t_max_span_depth T.
Notation lite := (t_lite T).
Variables (a : str) (os : list (nat * str * str)).
Hypothesis Ha : accepts before_spans a.
Hypothesis Hos : numbered lite os.
Definition src : str := a ++ render T (marked_text os).
Definition toks_text (idx : list N) : str := a ++ flat_map (raw_tok T) (zip idx os).
Lemma src_accepts : accepts (spanned lite) src.
Proof.
  unfold src. assert (render T (marked_text os) = glue (map (fun o => (mark_of (fst (fst o)) ++ snd (fst o) ++ mark_of (fst (fst o)), snd o)) os)) as ->.
  { unfold render, marked_text, glue. clear. induction os as [|[[k w] t] l IH]; [reflexivity|]. cbn [map flat_map fst snd item_text]. rewrite IH. reflexivity. }
  apply (joined_all lite (spanned lite)); [unfold spanned; cbn [au_trans]; apply incl_here|apply incl_refl|exact Ha|]. clear - Hos.
  induction os as [|[[k w] t] l IH]; [exact Hos|]. destruct l as [|o l].
  - destruct Hos as (H1 & H2 & H3). cbn [map joins fst snd]. split; [apply spanned_reads; assumption|exact H3].
  - destruct Hos as (H1 & H2 & H3 & H4). specialize (IH H4). cbn [map fst snd] in *. split; [apply spanned_reads; assumption|]. split; [exact H3|exact IH].
Qed.
Lemma toks_accepts idx : List.length idx = List.length os -> accepts (tokened lite) (toks_text idx).
Proof.
  intros Hl. unfold toks_text. assert (flat_map (raw_tok T) (zip idx os) = glue (map (fun x : tok => let '(k, i, w, t) := x in (item_text T (Tok i w), t)) (zip idx os))) as ->.
  { unfold glue. clear. generalize (zip idx os). intros l. induction l as [|[[[k i] w] t] l IH]; [reflexivity|]. cbn [map flat_map fst snd item_text raw_tok]. rewrite IH, <- !app_assoc. reflexivity. }
  apply (joined_all lite (tokened lite)); [unfold tokened; cbn [au_trans]; apply incl_here|apply incl_refl|exact Ha|]. clear - Hos Hl uid_simple.
  revert idx Hl. induction os as [|[[k w] t] l IH]; intros idx Hl; [destruct Hos|]. destruct idx as [|i idx]; [discriminate|]. destruct l as [|o l].
  - destruct Hos as (H1 & H2 & H3). destruct idx; [|discriminate]. cbn [zip map joins]. split; [apply tokened_reads; assumption|exact H3].
  - destruct Hos as (H1 & H2 & H3 & H4). destruct idx as [|j idx]; [discriminate|]. specialize (IH H4 (j :: idx) ltac:(cbn [List.length] in *; lia)). destruct o as [[k2 w2] t2]. cbn [zip map] in *.
    split; [apply tokened_reads; assumption|]. split; [exact H3|exact IH].
Qed.
Definition ends {A} (m : M A) (s0 : pstate) (P : A -> pstate -> Prop) : Prop := forall c, @cache_ok (own T) c -> exists v s', m (set_cache c s0) = Ret v s' /\ P v s'.
Lemma ends_bind {A B} (m : M A) (k : A -> M B) x s0 P : ps_borrowed s0 = false -> leaves T m x -> ends (k x) s0 P -> ends (bind m k) s0 P.
Proof.
  intros Hb Hm Hk c Hc. destruct (Hm (set_cache c s0) Hc Hb) as (c2 & Hc2 & E). destruct (Hk c2 Hc2) as (v & s' & E2 & HP). exists v, s'. split; [|exact HP]. unfold bind. rewrite E. rewrite <- E2. reflexivity.
Qed.
Lemma inline_spans fuel n : (0 < fuel)%nat -> exists idx s1, graf_n W T fuel (S n) src (new_state []) = Ret (toks_text idx) s1 /\ List.length idx = List.length os /\ all_found s1 (zip idx os) /\
  ps_ref_index s1 = 2 * N.of_nat (List.length os) /\ ps_notes s1 = [] /\ ps_shelf s1 = [] /\ ps_borrowed s1 = false /\ @cache_ok (own T) (ps_cache s1).
Proof.
  intros Hf. pose proof src_accepts as HS. set (t := src) in *. destruct (accepts_tailed _ _ HS) as [H1 H2].
  assert (L : forall r, In r (plain_rx lite (t_noimage T)) -> no_match (rx_re r) t) by (intros r Hr; eapply never_rx; [apply spanned_stage|exact H1|exact Hr]).
  assert (L2 : forall r, In r (plain_rx lite (t_noimage T)) -> no_match (rx_re r) (t ++ nl ++ nl)) by (intros r Hr; eapply never_rx; [apply spanned_stage|exact H2|exact Hr]).
  assert (In1 : forall r, In r [SPECIAL_COMMENT; RESTRICTED_URLREF_RE; UNRESTRICTED_URLREF_RE; QUOTED_QUOTE_RE; SLICE_RE] -> In r (plain_rx lite (t_noimage T))) by (intros r Hr; unfold plain_rx; rewrite !in_app_iff; tauto).
  assert (In2 : forall r, lite = false -> In r [SPECIAL_NOTEXTILE; SPECIAL_EQ; SPECIAL_CODE; SPECIAL_AT; SPECIAL_PRE; TABLE_RE; RC_PATTERN; LIST_RE] -> In r (plain_rx lite (t_noimage T))) by (intros r El Hr; unfold plain_rx; rewrite El, !in_app_iff; tauto).
  assert (In3 : t_noimage T = false -> In IMAGE_RE (plain_rx lite (t_noimage T))) by (intros El; unfold plain_rx; rewrite El, !in_app_iff; right; left; left; reflexivity).
  set (t2 := t ++ tail_of lite). assert (L3 : forall r, In r (plain_rx lite (t_noimage T)) -> no_match (rx_re r) t2) by (intros r Hr; unfold t2, tail_of; destruct lite eqn:El; [rewrite app_nil_r; apply L|apply L2]; exact Hr).
  set (P := fun (x : str) (s1 : pstate) => exists idx, x = toks_text idx /\ List.length idx = List.length os /\ all_found s1 (zip idx os) /\
    ps_ref_index s1 = 2 * N.of_nat (List.length os) /\ ps_notes s1 = [] /\ ps_shelf s1 = [] /\ ps_borrowed s1 = false /\ @cache_ok (own T) (ps_cache s1)).
  assert (Q : ends (graf_n W T fuel (S n) t) (new_state []) P).
  2:{ assert (C0 : @cache_ok (own T) []) by apply cache_ok_nil. destruct (Q [] C0) as (v & s1 & E & idx & -> & R). exists idx, s1. split; [exact E|exact R]. }
  cbn [graf_n]. unfold graf_body. assert (Hb : ps_borrowed (new_state []) = false) by reflexivity.
  eapply ends_bind with (x := t); [exact Hb| |]. { apply leaves_if; intros El; [apply leaves_ret|]. unfold no_textile. eapply leaves_bind; apply leaves_replace, L, In2; auto; cbn [In]; tauto. }
  eapply ends_bind with (x := t); [exact Hb| |]. { apply leaves_if; intros El; [apply leaves_ret|]. unfold code. eapply leaves_bind; [apply leaves_replace, L, In2; auto; cbn [In]; tauto|]. eapply leaves_bind; apply leaves_replace, L, In2; auto; cbn [In]; tauto. }
  eapply ends_bind with (x := t); [exact Hb| |]. { apply leaves_replace, L, In1. cbn [In]; tauto. }
  eapply ends_bind with (x := t); [exact Hb| |]. { unfold get_refs. destruct (t_restricted T); apply leaves_replace, L, In1; cbn [In]; tauto. }
  eapply ends_bind with (x := t); [exact Hb| |]. { apply leaves_replace, L, In1. cbn [In]; tauto. }
  eapply ends_bind with (x := t); [exact Hb| |].
  { apply links_inert; auto; [apply uid_simple_plain; exact uid_simple|apply L, In1; cbn [In]; tauto|]. unfold needle. apply contains_more. apply lead_absent; auto. eapply never_in; [apply spanned_small|exact HS|cbn [In small_re]; tauto]. }
  eapply ends_bind with (x := t); [exact Hb| |]. { apply leaves_if; intros El; [apply leaves_ret|]. apply leaves_replace, L, In3. exact El. }
  eapply ends_bind with (x := t2); [exact Hb| |].
  { unfold t2, tail_of. destruct lite eqn:El; [rewrite app_nil_r; apply leaves_ret|]. unfold table. rewrite captures_no_match; [apply leaves_ret|]. apply L2, In2; auto; cbn [In]; tauto. }
  eapply ends_bind with (x := t2); [exact Hb| |]. { apply leaves_if; intros El; [apply leaves_ret|]. apply leaves_replace, L3, In2; auto; cbn [In]; tauto. }
  eapply ends_bind with (x := t2); [exact Hb| |]. { apply leaves_if; intros El; [apply leaves_ret|]. apply leaves_replace, L3, In2; auto; cbn [In]; tauto. }
  intros c Hc. pose proof (numbered_ne _ _ Hos) as Hne. set (z := tail_of lite) in *.
  destruct (span_text T a (add_tail z os) (set_cache c (new_state [])) (uid_free T uid_simple) depth eq_refl eq_refl) as (l & s2 & E & G & TR & FL & EI).
  { apply (calm_of _ _ calm_before). exact Ha. } { apply closes_before. exact Ha. } { apply numbered_flow. exact Hos. }
  destruct (zip_of T s2 _ _ TR FL) as (idx & Hl & Er & Hfound). rewrite Er in E. rewrite (render_tail T z os Hne) in E. rewrite (zip_tail T z os idx Hne Hl) in E. rewrite add_tail_length in Hl, EI. apply found_tail in Hfound.
  rewrite app_assoc in E. fold src in E. change src with t in E. fold t2 in E. rewrite app_assoc in E. fold (toks_text idx) in E. set (g := toks_text idx) in *.
  pose proof (toks_accepts idx Hl) as HT. fold g in HT. destruct (accepts_tailed _ _ HT) as [T1 T2].
  assert (N1 : forall r, In r [FOOTNOTE_RE; NOTEREF_RE] -> no_match (rx_re r) (g ++ z)) by (intros r Hr; unfold z, tail_of; destruct lite eqn:El; [rewrite app_nil_r|]; (eapply never_rx; [apply tokened_stage|eassumption|exact Hr])).
  assert (N2 : forall r, In r token_small -> no_match r g) by (intros r Hr; eapply never_in; [apply tokened_small|exact HT|exact Hr]).
  assert (N3 : forall r, In r GLYPH_RX -> no_match (rx_re r) g) by (intros r Hr; eapply never_rx; [apply tokened_glyph|exact HT|apply in_or_app; left; exact Hr]).
  assert (Et : trim_end_matches 10 g = g) by (apply no_end_newline, N2; cbn [In token_small]; tauto).
  assert (Ez : trim_end_matches 10 (g ++ z) = g) by (unfold z, tail_of; destruct lite; [rewrite app_nil_r; exact Et|rewrite trim_end_snoc; exact Et]).
  unfold bind at 1. rewrite E. unfold bind at 1. unfold footnote_ref. rewrite no_match_replaceM by (apply N1; cbn [In]; tauto).
  unfold bind at 1. unfold note_ref. rewrite no_match_replaceM by (apply N1; cbn [In]; tauto).
  assert (Eg : forall s, glyphs T (g ++ z) s = Ret g s).
  { intros s. unfold glyphs. rewrite Ez. unfold splitM, bind. rewrite split_no_match by (apply N3; left; reflexivity). cbn [of_opt ret glyph_chunks List.concat]. rewrite chunk_inert; [unfold ret; rewrite app_nil_r; reflexivity|exact N3| |]; apply no_match_ch, N2; cbn [In token_small]; tauto. }
  unfold bind. rewrite Eg. unfold ret. rewrite Et. exists g, s2. split; [reflexivity|]. exists idx. destruct G as (G1 & G2 & G3). repeat split; auto; try (rewrite G1; reflexivity). rewrite G1. exact Hc.
Qed.
End Inline.
