(** Paragraphs with inline code and untouched fragments. *)
From Verif Require Import Str Unicode Regex RegexParse RegexSnips RegexTheory RegexAuto RegexGroups Lib ModelBase ModelHtml ModelUrl
  ModelAttrs ModelInline ModelParser SpecRegex ProofRegex ProofCharref SpecParse ProofParse Logic ProofWalk ProofState SpecState ProofMemory ProofCache ProofLinks ProofDoc
  SpecPlain ProofPlain SpecNewlines ProofNewlines ProofParas ProofTags ProofSections ProofBlocks ProofStateEx SpecDoc ProofDocument SpecText ProofText ProofWeave ProofSpan ProofSpanRe ProofSpanText SpecSpans ProofSpanDoc ProofSpanPage
  SpecSigned ProofSigned ProofSignedDoc ProofSignedPage ProofSignedEnd ProofSignedTop ProofPages ProofSpecial SpecCode ProofCode.
#[local] Arguments u : simpl never.

(** ** Texts around fragments *)
Lemma around_pieces A t : A = before_code \/ A = between_code \/ A = after_code -> accepts A t -> ~ In 60 t /\ ~ In 61 t /\ ~ In 64 t /\ no_match uid_lead t /\ ~ In 38 t /\ ~ In 62 t.
Proof.
  assert (forallb (fun A => forallb (never A) [RCls (ch 60); RCls (ch 61); RCls (ch 64); uid_lead; RCls (ch 38); RCls (ch 62)]) [before_code; between_code; after_code] = true) as F by (vm_compute; reflexivity).
  rewrite forallb_forall in F. intros HA H. assert (In A [before_code; between_code; after_code]) as Hi by (cbn; intuition). specialize (F A Hi). cbv beta in F.
  assert (forall r, In r [RCls (ch 60); RCls (ch 61); RCls (ch 64); uid_lead; RCls (ch 38); RCls (ch 62)] -> no_match r t) as N by (intros r Hr; eapply never_in; eauto).
  split; [apply no_match_ch, N; cbn; tauto|]. split; [apply no_match_ch, N; cbn; tauto|]. split; [apply no_match_ch, N; cbn; tauto|]. split; [apply N; cbn; tauto|]. split; [apply no_match_ch, N; cbn; tauto|]. apply no_match_ch, N; cbn; tauto.
Qed.
Lemma ends_before a : accepts before_code a -> a = [] \/ closes a.
Proof. intros H. apply closes_of. eapply never_ok; [exact H|]. vm_compute. reflexivity. Qed.
Lemma ends_between t : accepts between_code t -> closes t.
Proof.
  intros H. destruct (closes_of t) as [->|Hc]; [eapply never_ok; [exact H|]; vm_compute; reflexivity| |exact Hc]. inversion H as [q Hf|]; subst. cbn in Hf. intuition discriminate.
Qed.
Definition starts_cls : cls := mk_cls true (map (fun c => CRange c c) (u " ,;!.?" ++ [10])).
Lemma starts_after t : accepts between_code t \/ accepts after_code t -> t = [] \/ exists c r, t = c :: r /\ In c (u " ,;!.?" ++ [10]).
Proof.
  intros H. destruct t as [|c r]; [left; reflexivity|]. right. exists c, r. split; [reflexivity|].
  assert (no_match (start_cls starts_cls) (c :: r)) as N by (destruct H as [H|H]; (eapply never_ok; [exact H|]; vm_compute; reflexivity)).
  apply no_start_cls in N. destruct (in_dec N.eq_dec c (u " ,;!.?" ++ [10])) as [Hi|Hi]; [exact Hi|]. exfalso. unfold starts_cls in N. unfold in_cls in N. cbn [c_neg c_items] in N.
  assert (existsb (fun i => in_item i c) (map (fun c => CRange c c) (u " ,;!.?" ++ [10])) = false) as E; [|rewrite E in N; discriminate].
  clear N. destruct (existsb _ _) eqn:E; auto. apply existsb_exists in E as (i & E1 & E2). apply in_map_iff in E1 as (d & <- & Hd). cbn [in_item] in E2. apply andb_prop in E2 as [E2 E3]. apply N.leb_le in E2, E3. assert (c = d) as -> by lia. contradiction.
Qed.
Lemma follow_tail t : accepts between_code t \/ accepts after_code t -> calm_tail t.
Proof.
  intros H. destruct (starts_after t H) as [->|(c & r & -> & Hc)]; [exact I|]. cbn [calm_tail]. assert (forallb (fun x => negb (in_cls close_cls x)) (u " ,;!.?" ++ [10]) = true) as F by (vm_compute; reflexivity).
  rewrite forallb_forall in F. apply F in Hc. apply negb_true_iff in Hc. exact Hc.
Qed.
Lemma closes_lead t : closes t -> ends_lead t.
Proof. intros (a & d & -> & Hd). exists a, d. split; [reflexivity|]. unfold lead. destruct Hd as [-> | ->]; reflexivity. Qed.

(** ** Fragments as the parser sees them *)
Definition seen_fragment (T : textile) (f : fragment) : fragment :=
  match f with InlineCode c => InlineCode (seen_text T c) | InlineRaw c => InlineRaw (seen_text T c) end.
Definition inside_of (f : fragment) : str := match f with InlineCode c | InlineRaw c => c end.
Definition is_code (f : fragment) : bool := match f with InlineCode _ => true | _ => false end.
Definition shelf_of (f : fragment) : str := match f with InlineCode c => code_of c | InlineRaw c => c end.
Notation frags := (list (fragment * str)).
Definition frag_text (l : frags) : str := flat_map (fun x => fragment_text (fst x) ++ snd x) l.

Section Doc.
Variables (W : world) (T : textile).
Hypothesis uid_simple : simple_uid (t_uid T).
Notation tok n := (fragment_token T n).
Notation br := (br_tag T).
Notation fb := (final_br T).
Definition fits (f : fragment) : Prop :=
  let c := inside_of f in c <> [] /\ ~ In 10 c /\ ~ In 13 c /\ uid_free T c /\ contains (u "<notextile>") c = false /\
  match f with
  | InlineCode _ => ~ In 64 c /\ contains (u "==") c = false /\ contains (u "<code>") c = false
  | InlineRaw _ => clear (u "==") c /\ no_br c
  end.
Fixpoint follow (l : frags) : Prop :=
  match l with
  | [] => True
  | [(f, t)] => fits f /\ accepts after_code t
  | (f, t) :: l' => fits f /\ accepts between_code t /\ follow l'
  end.
Lemma follow_cons f t l : follow ((f, t) :: l) -> fits f /\ (accepts between_code t \/ accepts after_code t) /\ (l <> [] -> accepts between_code t) /\ (l = [] -> accepts after_code t) /\ follow l.
Proof. destruct l as [|p l]; cbn [follow]; intuition congruence. Qed.

(** First the fragments that are not touched. *)
Fixpoint gather (a : str) (l : frags) : str * list (str * str) :=
  match l with
  | [] => (a, [])
  | (InlineRaw c, t) :: l' => (a, (c, fst (gather t l')) :: snd (gather t l'))
  | (InlineCode c, t) :: l' => (a ++ 64 :: c ++ 64 :: fst (gather t l'), snd (gather t l'))
  end.
Lemma gather_text l : forall a, a ++ frag_text l = fst (gather a l) ++ rendered (u "==") (u "==") (snd (gather a l)).
Proof.
  induction l as [|[[c|c] t] l IH]; intros a; cbn [gather fst snd]; [reflexivity| |].
  - unfold frag_text. cbn [flat_map fst snd fragment_text]. fold (frag_text l). change (u "@") with [64]. rewrite <- !app_assoc. cbn [app]. rewrite <- !app_assoc. cbn [app]. do 4 f_equal. rewrite (IH t). reflexivity.
  - unfold frag_text. cbn [flat_map fst snd fragment_text]. fold (frag_text l). unfold rendered. cbn [flat_map fst snd]. fold (rendered (u "==") (u "==") (snd (gather t l))). rewrite <- !app_assoc. do 4 f_equal. apply IH.
Qed.
(** The number of fragments that are not touched. *)
Fixpoint raws (l : frags) : list str := match l with [] => [] | (InlineRaw c, _) :: l' => c :: raws l' | _ :: l' => raws l' end.
Fixpoint codes (l : frags) : list str := match l with [] => [] | (InlineCode c, _) :: l' => code_of c :: codes l' | _ :: l' => codes l' end.
Lemma gather_raws l : forall a, map (fun p => fst p) (snd (gather a l)) = raws l.
Proof. induction l as [|[[c|c] t] l IH]; intros a; cbn [gather snd raws map fst]; rewrite ?IH; reflexivity. Qed.
(** Then the code. *)
Fixpoint gather2 (n : N) (a : str) (l : frags) : str * list (str * str) :=
  match l with
  | [] => (a, [])
  | (InlineCode c, t) :: l' => (a, (c, fst (gather2 n t l')) :: snd (gather2 n t l'))
  | (InlineRaw c, t) :: l' => (a ++ tok (n + 1) ++ fst (gather2 (n + 1) t l'), snd (gather2 (n + 1) t l'))
  end.
Lemma gather2_text l : forall n a, fst (gather a l) ++ toks T n (snd (gather a l)) = fst (gather2 n a l) ++ rendered (u "@") (u "@") (snd (gather2 n a l)).
Proof.
  induction l as [|[[c|c] t] l IH]; intros n a; cbn [gather gather2 fst snd toks]; [reflexivity| |].
  - unfold rendered. cbn [flat_map fst snd]. fold (rendered (u "@") (u "@") (snd (gather2 n t l))). change (u "@") with [64] at 1 2. rewrite <- !app_assoc. cbn [app]. rewrite <- !app_assoc. cbn [app]. do 4 f_equal. apply IH.
  - rewrite <- !app_assoc. do 2 f_equal. apply IH.
Qed.
Lemma gather2_codes l : forall n a, map (fun p => code_of (fst p)) (snd (gather2 n a l)) = codes l.
Proof. induction l as [|[[c|c] t] l IH]; intros n a; cbn [gather2 snd codes map fst]; rewrite ?IH; reflexivity. Qed.
(** With tokens. *)
Fixpoint tokened_text (n m : N) (l : frags) : str :=
  match l with
  | [] => []
  | (InlineCode _, t) :: l' => tok (m + 1) ++ t ++ tokened_text n (m + 1) l'
  | (InlineRaw _, t) :: l' => tok (n + 1) ++ t ++ tokened_text (n + 1) m l'
  end.
Lemma tokened_is l : forall n m a, fst (gather2 n a l) ++ toks T m (snd (gather2 n a l)) = a ++ tokened_text n m l.
Proof.
  induction l as [|[[c|c] t] l IH]; intros n m a; cbn [gather2 fst snd toks tokened_text]; [reflexivity| |]; rewrite <- ?app_assoc; do 2 f_equal; apply IH.
Qed.

(** ** The marks *)
Lemma clear_at x : ~ In 64 x -> clear (u "@") x.
Proof. intros H a c b -> rest. change (u "@") with [64]. cbn [starts_with]. destruct (N.eqb_spec 64 c) as [<-|]; [|reflexivity]. destruct H. apply in_or_app. right. left. reflexivity. Qed.
Definition fine (x : str) : Prop := contains (u "==") x = false /\ (x = [] \/ exists v d, x = v ++ [d] /\ d <> 61).
Lemma clear_fine x : fine x -> clear (u "==") x.
Proof.
  intros [H1 H2] a c b -> rest. change (u "==") with [61; 61] in *. cbn [starts_with]. destruct (N.eqb_spec 61 c) as [<-|]; [|reflexivity]. cbn [andb].
  destruct b as [|d b].
  - destruct H2 as [H2|(v & d & H2 & H3)]; [destruct a; discriminate|]. apply app_inj_tail in H2 as [_ <-]. congruence.
  - cbn [app starts_with]. destruct (N.eqb_spec 61 d) as [<-|]; [|reflexivity]. exfalso. assert (contains [61; 61] (a ++ [61; 61] ++ b) = true) as F by apply contains_mid. cbn [app] in F. congruence.
Qed.
Lemma no_eq_fine x : ~ In 61 x -> fine x.
Proof.
  intros H. split.
  - destruct (contains (u "==") x) eqn:E; auto. apply contains_split in E as (a & b & ->). destruct H. apply in_or_app. right. left. reflexivity.
  - destruct x as [|c x] using rev_ind; [left; reflexivity|]. right. exists x, c. split; auto. intros ->. apply H, in_or_app. right. left. reflexivity.
Qed.
Lemma fine_cut a c : contains (u "==") a = false -> fine c -> fine (a ++ 64 :: c).
Proof.
  intros H [H1 H2]. split.
  - rewrite contains_cut, H, H1; [reflexivity| |discriminate]. vm_compute; intuition discriminate.
  - right. destruct H2 as [->|(v & d & -> & Hd)]; [exists a, 64; split; [reflexivity|discriminate]|]. exists (a ++ 64 :: v), d. rewrite <- app_assoc. auto.
Qed.
Lemma gather_fine l : forall a, ~ In 61 a -> follow l -> fine (fst (gather a l)).
Proof.
  induction l as [|[[c|c] t] l IH]; intros a Ha Hl; cbn [gather fst]; [apply no_eq_fine; auto| |apply no_eq_fine; auto].
  apply follow_cons in Hl as (Hf & Ht & _ & _ & Hl). destruct Hf as (_ & _ & _ & _ & _ & _ & Hf & _). cbn [inside_of] in Hf.
  assert (~ In 61 t) as H61 by (destruct Ht as [Ht|Ht]; [eapply (around_pieces between_code); auto|eapply (around_pieces after_code); auto]).
  apply fine_cut; [apply no_eq_fine; exact Ha|]. apply fine_cut; [exact Hf|]. apply IH; auto.
Qed.
Lemma gather_last l : forall a, (snd (gather a l) <> [] -> l <> [] -> closes a \/ a = []) -> follow l -> snd (gather a l) <> [] -> closes (fst (gather a l)) \/ fst (gather a l) = [].
Proof.
  induction l as [|[[c|c] t] l IH]; intros a Ha Hl Hn; cbn [gather fst snd] in *; [congruence| |].
  - left. apply follow_cons in Hl as (_ & Ht & Hm & _ & Hl).
    assert (l <> []) as Hl0 by (intros ->; apply Hn; reflexivity).
    destruct (IH t) as [(v & d & E & Hd)|E]; auto.
    + intros _ _. left. apply ends_between, Hm, Hl0.
    + exists (a ++ 64 :: c ++ 64 :: v), d. split; auto. rewrite E. cbn [app]. rewrite <- !app_assoc. cbn [app]. rewrite <- app_assoc. reflexivity.
    + exfalso. assert (accepts between_code t) as Hb by auto. apply ends_between in Hb as (v & d & -> & _). destruct l as [|[[c'|c'] t'] l]; cbn [gather fst] in E; [congruence| |]; destruct v; discriminate.
  - apply Ha; discriminate.
Qed.
Lemma gather_lead l a : (a = [] \/ closes a) -> follow l -> snd (gather a l) <> [] -> ends_lead (fst (gather a l)) \/ fst (gather a l) = [].
Proof. intros Ha Hl Hn. destruct (gather_last l a) as [H|H]; auto; [tauto|]. left. apply closes_lead, H. Qed.
Lemma gather_on l : forall a, follow l -> goes_on (u "==") (u "==") (snd (gather a l)).
Proof.
  induction l as [|[[c|c] t] l IH]; intros a Hl; cbn [gather snd]; [exact I|apply follow_cons in Hl as (_ & _ & _ & _ & Hl); auto|].
  apply follow_cons in Hl as (Hf & Ht & Hm & _ & Hl). destruct Hf as (_ & _ & _ & _ & _ & Hf & _). cbn [goes_on].
  assert (~ In 61 t) as H61 by (destruct Ht as [Ht|Ht]; [eapply (around_pieces between_code); auto|eapply (around_pieces after_code); auto]).
  split; [exact Hf|]. split; [apply clear_fine, gather_fine; auto|]. split.
  { pose proof (follow_tail t Ht) as Hc. destruct l as [|[[c'|c'] t'] l]; cbn [gather fst]; auto. destruct t; [|exact Hc]. assert (accepts between_code []) as Hb by (apply Hm; discriminate). apply ends_between in Hb as (v & d & F & _). destruct v; discriminate. }
  split; [|apply IH; auto]. intros Hn. assert (l <> []) as Hl0 by (intros ->; apply Hn; reflexivity). pose proof (ends_between t (Hm Hl0)) as Hc.
  destruct (gather_lead l t) as [H|H]; auto. exfalso. destruct Hc as (v & d & -> & _). destruct l as [|[[c'|c'] t'] l]; cbn [gather fst] in H; [congruence| |]; destruct v; discriminate.
Qed.
Lemma tok_64 n : ~ In 64 (tok n).
Proof. apply (tok_without T uid_simple); reflexivity. Qed.
Lemma gather2_at l : forall n a, ~ In 64 a -> follow l -> ~ In 64 (fst (gather2 n a l)).
Proof.
  induction l as [|[[c|c] t] l IH]; intros n a Ha Hl; cbn [gather2 fst]; auto. apply follow_cons in Hl as (_ & Ht & _ & _ & Hl).
  assert (~ In 64 t) as H64 by (destruct Ht as [Ht|Ht]; [eapply (around_pieces between_code); auto|eapply (around_pieces after_code); auto]).
  rewrite !in_app_iff. pose proof (IH (n + 1) t H64 Hl). pose proof (tok_64 (n + 1)). tauto.
Qed.
Lemma gather2_last l : forall n a, (snd (gather2 n a l) <> [] -> l <> [] -> closes a \/ a = []) -> follow l -> snd (gather2 n a l) <> [] -> closes (fst (gather2 n a l)) \/ fst (gather2 n a l) = [].
Proof.
  induction l as [|[[c|c] t] l IH]; intros n a Ha Hl Hn; cbn [gather2 fst snd] in *; [congruence|apply Ha; discriminate|].
  left. apply follow_cons in Hl as (_ & Ht & Hm & _ & Hl).
  assert (l <> []) as Hl0 by (intros ->; apply Hn; reflexivity).
  destruct (IH (n + 1) t) as [(v & d & E & Hd)|E]; auto.
  - intros _ _. left. apply ends_between, Hm, Hl0.
  - exists (a ++ tok (n + 1) ++ v), d. split; auto. rewrite E, <- !app_assoc. reflexivity.
  - exfalso. assert (accepts between_code t) as Hb by auto. apply ends_between in Hb as (v & d & -> & _). destruct l as [|[[c'|c'] t'] l]; cbn [gather2 fst] in E; [congruence| |]; destruct v; discriminate.
Qed.
Lemma gather2_lead l n a : (a = [] \/ closes a) -> follow l -> snd (gather2 n a l) <> [] -> ends_lead (fst (gather2 n a l)) \/ fst (gather2 n a l) = [].
Proof. intros Ha Hl Hn. destruct (gather2_last l n a) as [H|H]; auto; [tauto|]. left. apply closes_lead, H. Qed.
Lemma gather2_on l : forall n a, follow l -> goes_on (u "@") (u "@") (snd (gather2 n a l)).
Proof.
  induction l as [|[[c|c] t] l IH]; intros n a Hl; cbn [gather2 snd]; [exact I| |apply follow_cons in Hl as (_ & _ & _ & _ & Hl); auto].
  apply follow_cons in Hl as (Hf & Ht & Hm & _ & Hl). destruct Hf as (_ & _ & _ & _ & _ & Hf & _). cbn [goes_on inside_of] in *.
  assert (~ In 64 t) as H64 by (destruct Ht as [Ht|Ht]; [eapply (around_pieces between_code); auto|eapply (around_pieces after_code); auto]).
  split; [apply clear_at, Hf|]. split; [apply clear_at, gather2_at; auto|]. split.
  { pose proof (follow_tail t Ht) as Hc. destruct l as [|[[c'|c'] t'] l]; cbn [gather2 fst]; auto. destruct t; [|exact Hc]. assert (accepts between_code []) as Hb by (apply Hm; discriminate). apply ends_between in Hb as (v & d & F & _). destruct v; discriminate. }
  split; [|apply IH; auto]. intros Hn. assert (l <> []) as Hl0 by (intros ->; apply Hn; reflexivity). pose proof (ends_between t (Hm Hl0)) as Hc.
  destruct (gather2_lead l n t) as [H|H]; auto. exfalso. destruct Hc as (v & d & -> & _). destruct l as [|[[c'|c'] t'] l]; cbn [gather2 fst] in H; [congruence| |]; destruct v; discriminate.
Qed.
(** No tag of HTML. *)
Lemma no_60 w x : ~ In 60 x -> contains (60 :: w) x = false.
Proof. intros H. destruct (contains (60 :: w) x) eqn:E; auto. apply contains_split in E as (a & b & ->). destruct H. apply in_or_app. right. left. reflexivity. Qed.
Lemma code_absent w c t : ~ In 64 (60 :: w) -> contains (60 :: w) c = false -> contains (60 :: w) t = false -> forall a, ~ In 60 a -> contains (60 :: w) (a ++ 64 :: c ++ 64 :: t) = false.
Proof. intros Hw Hc Ht a Ha. rewrite contains_cut by (auto; discriminate). rewrite contains_cut by (auto; discriminate). rewrite Hc, Ht, no_60 by auto. reflexivity. Qed.
Lemma raw_absent w c t : ~ In 61 (60 :: w) -> contains (60 :: w) c = false -> contains (60 :: w) t = false -> forall a, ~ In 60 a -> contains (60 :: w) (a ++ 61 :: 61 :: c ++ 61 :: 61 :: t) = false.
Proof.
  intros Hw Hc Ht a Ha. assert (forall x y, contains (60 :: w) x = false -> contains (60 :: w) y = false -> contains (60 :: w) (x ++ 61 :: 61 :: y) = false) as Q.
  { intros x y Hx Hy. rewrite contains_cut by (auto; discriminate). change (61 :: y) with ([] ++ 61 :: y). rewrite contains_cut by (auto; discriminate). rewrite Hx, Hy. reflexivity. }
  apply Q; [apply no_60; exact Ha|]. apply Q; auto.
Qed.
Lemma text_60 t : accepts between_code t \/ accepts after_code t -> ~ In 60 t.
Proof. intros [H|H]; [eapply (around_pieces between_code); auto|eapply (around_pieces after_code); auto]. Qed.
Lemma source_absent l : forall a, ~ In 60 a -> follow l -> contains (u "<notextile>") (a ++ frag_text l) = false.
Proof.
  induction l as [|[[c|c] t] l IH]; intros a Ha Hl.
  - rewrite app_nil_r. apply no_60. exact Ha.
  - apply follow_cons in Hl as (Hf & Ht & _ & _ & Hl). destruct Hf as (_ & _ & _ & _ & Hf & _). unfold frag_text. cbn [flat_map fst snd fragment_text inside_of] in *. fold (frag_text l). change (u "@") with [64]. rewrite <- !app_assoc. cbn [app].
    apply code_absent; auto; [vm_compute; intuition discriminate|]. apply IH; auto. apply text_60; auto.
  - apply follow_cons in Hl as (Hf & Ht & _ & _ & Hl). destruct Hf as (_ & _ & _ & _ & Hf & _). unfold frag_text. cbn [flat_map fst snd fragment_text inside_of] in *. fold (frag_text l). change (u "==") with [61; 61]. rewrite <- !app_assoc. cbn [app].
    apply raw_absent; auto; [vm_compute; intuition discriminate|]. apply IH; auto. apply text_60; auto.
Qed.
Lemma middle_absent l : forall n a, ~ In 60 a -> follow l -> contains (u "<code>") (fst (gather2 n a l) ++ rendered (u "@") (u "@") (snd (gather2 n a l))) = false.
Proof.
  induction l as [|[[c|c] t] l IH]; intros n a Ha Hl.
  - cbn [gather2 fst snd]. rewrite app_nil_r. apply no_60. exact Ha.
  - apply follow_cons in Hl as (Hf & Ht & _ & _ & Hl). destruct Hf as (_ & _ & _ & _ & _ & _ & _ & Hf). cbn [gather2 fst snd inside_of] in *. unfold rendered. cbn [flat_map fst snd]. fold (rendered (u "@") (u "@") (snd (gather2 n t l))). change (u "@") with [64] at 1 2. rewrite <- !app_assoc. cbn [app].
    apply code_absent; auto; [vm_compute; intuition discriminate|]. apply IH; auto. apply text_60; auto.
  - apply follow_cons in Hl as (Hf & Ht & _ & _ & Hl). cbn [gather2 fst snd]. rewrite <- !app_assoc.
    assert (forall x, contains (u "<code>") x = false -> contains (u "<code>") (a ++ tok (n + 1) ++ x) = false) as Q.
    { intros x Hx. assert (forall y, ~ In 60 y -> contains (u "<code>") (y ++ x) = false) as Q2.
      { induction y as [|z y IHy]; intros Hy; [exact Hx|]. change ((z :: y) ++ x) with ([] ++ z :: y ++ x). destruct (N.eq_dec z 60) as [->|Hz]; [destruct Hy; left; reflexivity|].
        cbn [app contains]. change (u "<code>") with (60 :: u "code>") in IHy |- *. cbn [starts_with]. destruct (N.eqb_spec 60 z); [congruence|]. cbn [andb orb]. apply IHy. intros F. apply Hy. right. exact F. }
      rewrite app_assoc. apply Q2. rewrite in_app_iff. intros [F|F]; [auto|]. revert F. apply (tok_without T uid_simple); reflexivity. }
    apply Q, IH; auto. apply text_60; auto.
Qed.
Lemma absent_split w t : contains w t = false -> forall a b, t <> a ++ w ++ b.
Proof. intros H a b ->. rewrite contains_mid in H. discriminate. Qed.
Lemma special_steps l a s : (a = [] \/ closes a) -> ~ In 60 a -> ~ In 61 a -> ~ In 64 a -> follow l -> 
  let t1 := fst (gather2 (ps_ref_index s) a l) ++ rendered (u "@") (u "@") (snd (gather2 (ps_ref_index s) a l)) in
  let t2 := a ++ tokened_text (ps_ref_index s) (ps_ref_index s + size (raws l)) l in
  no_textile T (a ++ frag_text l) s = Ret t1 (puts T (raws l) s) /\
  (no_match (rx_re SPECIAL_PRE) t2 -> code T t1 (puts T (raws l) s) = Ret t2 (puts T (raws l ++ codes l) s)).
Proof.
  intros Ha H60 H61 H64 Hl t1 t2. split.
  - unfold no_textile, bind at 1. rewrite no_match_replaceM.
    + rewrite gather_text, special_eq. rewrite (replace_special (u "==") (u "==") ltac:(discriminate) T (fun c => c) (f_textile T)).
      * rewrite gather2_text, gather_raws. reflexivity.
      * apply f_textile_ok.
      * apply clear_fine, gather_fine; auto.
      * intros Hn. apply gather_lead; auto.
      * apply gather_on; auto.
    + rewrite special_notextile. apply special_none. apply absent_split, source_absent; auto.
  - intros Hpre. unfold code, bind at 1. rewrite no_match_replaceM.
    + unfold bind at 1. rewrite special_at. unfold t1. rewrite (replace_special (u "@") (u "@") ltac:(discriminate) T code_of (f_code T)).
      * rewrite puts_ref. rewrite tokened_is, gather2_codes. fold t2. rewrite no_match_replaceM by exact Hpre. rewrite puts_app. reflexivity.
      * apply f_code_ok.
      * apply clear_at, gather2_at; auto.
      * intros Hn. apply gather2_lead; auto.
      * apply gather2_on; auto.
    + rewrite special_code. apply special_none. apply absent_split, middle_absent; auto.
Qed.
End Doc.
