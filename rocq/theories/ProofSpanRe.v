(** The patterns of spans at the marks of plain words. *)
From Coq Require Import String.
From Verif Require Import Str Unicode Regex RegexParse RegexSnips RegexTheory RegexAuto RegexGroups Lib ModelBase ModelHtml ModelInline SpecRegex ProofRegex
  SpecParse ProofParse SpecPlain ProofPlain ProofParas ProofTags ProofWeave.
#[local] Arguments u : simpl never.

(** ** Expressions before a character of a class: failing, or matching nothing *)
Fixpoint verdicts (r : re) (l : cls) : bool * bool :=
  match r with
  | REps => (false, true)
  | RCls k => (negb (may k l), false)
  | RSeq a b => let (d, s) := verdicts a l in let (d', s') := verdicts b l in (d || ((s || peeks a) && d'), s && s')
  | RAlt a b => let (d, s) := verdicts a l in let (d', s') := verdicts b l in (d && d', (d && s') || (s && d') || (s && s'))
  | RStar _ a => let (d, s) := verdicts a l in (false, d)
  | RGroup _ a => (fst (verdicts a l), false)
  | RLook a => (fst (verdicts a l), false)
  | RNLook a => (false, fst (verdicts a l))
  | RAssert EOT => (true, false)
  | _ => (false, false)
  end.
Lemma verdicts_ok r l x : in_cls l x = true -> (fst (verdicts r l) = true -> dead r x = true) /\ (snd (verdicts r l) = true -> skips r x = true).
Proof.
  intros Hx. unfold dead, skips. induction r as [ |c|a IHa b IHb|a IHa b IHb|g a IHa|n a IHa|n|a IHa|a IHa|c|a]; cbn [verdicts verdict];
    try (destruct (verdicts a l) as [d s], (verdict a x) as [e t]; cbn [fst snd] in *; destruct IHa as [A1 A2]);
    try (destruct (verdicts b l) as [d' s'], (verdict b x) as [e' t']; cbn [fst snd] in *; destruct IHb as [B1 B2]).
  - auto.
  - split; [|discriminate]. cbn [fst]. intros H. destruct (in_cls c x) eqn:E; [|reflexivity]. rewrite (may_ok c l x E Hx) in H. discriminate.
  - split; intros H.
    + apply orb_prop in H as [H|H]; [rewrite A1 by auto; reflexivity|]. apply andb_prop in H as [H1 H2]. rewrite (B1 H2). apply orb_prop in H1 as [H1|H1]; [rewrite (A2 H1)|rewrite H1]; cbn; rewrite ?orb_true_r; reflexivity.
    + apply andb_prop in H as [H1 H2]. rewrite A2, B2 by auto. reflexivity.
  - split; intros H.
    + apply andb_prop in H as [H1 H2]. rewrite A1, B1 by auto. reflexivity.
    + apply orb_prop in H as [H|H]; [apply orb_prop in H as [H|H]|]; apply andb_prop in H as [H1 H2].
      * rewrite A1, B2 by auto. reflexivity.
      * rewrite A2, B1 by auto. cbn. rewrite orb_true_r. reflexivity.
      * rewrite A2, B2 by auto. cbn. rewrite orb_true_r. reflexivity.
  - split; [discriminate|auto].
  - split; [auto|discriminate].
  - split; discriminate.
  - split; [auto|discriminate].
  - split; [discriminate|auto].
  - split; discriminate.
  - destruct a; split; try discriminate; auto.
Qed.

(** ** The shape of the patterns *)
Definition star_mark : re := Eval vm_compute in rx_re (span_re "\*").
Definition before_cls : cls := Eval vm_compute in match star_mark with RSeq (RGroup _ (RAlt _ (RAlt (RBack k) _))) _ => k | _ => mk_cls false [] end.
Definition brace_cls : cls := Eval vm_compute in match star_mark with RSeq (RGroup _ (RAlt _ (RAlt _ (RCls k)))) _ => k | _ => mk_cls false [] end.
Definition att_re : re := Eval vm_compute in match star_mark with RSeq _ (RSeq _ (RSeq _ (RSeq (RGroup _ a) _))) => a | _ => REps end.
Definition pn_cls : cls := Eval vm_compute in match star_mark with RSeq _ (RSeq _ (RSeq _ (RSeq _ (RSeq _ (RSeq _ (RSeq _ (RSeq (RGroup _ (RStar _ (RCls k))) _))))))) => k | _ => mk_cls false [] end.
Definition tail_re : re := Eval vm_compute in match star_mark with RSeq _ (RSeq _ (RSeq _ (RSeq _ (RSeq _ (RSeq _ (RSeq _ (RSeq _ (RSeq _ (RGroup _ a))))))))) => a | _ => REps end.
Definition solid : cls := mk_cls false [CProp true PSpace].
Definition white : cls := mk_cls false [CProp false PSpace].
Definition span_shape (mkre fin : re) (cs : list citem) : re :=
  let X := mk_cls true (CProp false PSpace :: cs) in
  RSeq (RGroup 1 (RAlt (RAssert SOT) (RAlt (RBack before_cls) (RCls brace_cls))))
  (RSeq (RGroup 2 mkre) (RSeq (RNLook mkre) (RSeq (RGroup 3 att_re) (RSeq (RNLook mkre)
  (RSeq (RAlt (RSeq (RCls (ProofParse.one 58)) (RGroup 4 (RSeq (RSeq (RCls solid) (RStar true (RCls solid))) (RSeq (RCls (mk_cls true cs)) (RCls white))))) REps)
  (RSeq (RGroup 5 (RAlt (RSeq (RCls X) (RStar true (RCls X)))
                        (RSeq (RCls solid) (RSeq (RStar false (RCls not_newline)) (RCls (mk_cls true (CProp false PSpace :: cs ++ [CRange 10 10])))))))
  (RSeq (RGroup 6 (RStar true (RCls pn_cls))) fin))))))).
Definition mark_one (c : N) : re := span_shape (RCls (ProofParse.one c)) (RSeq (RCls (ProofParse.one c)) (RGroup 7 tail_re)) [CRange c c].
Definition mark_two (c : N) : re :=
  span_shape (RSeq (RCls (ProofParse.one c)) (RCls (ProofParse.one c))) (RSeq (RCls (ProofParse.one c)) (RSeq (RCls (ProofParse.one c)) (RGroup 7 tail_re))) [CRange c c; CRange c c].
Lemma patterns_shape : map rx_re TAG_PATTERNS = [mark_two 42; mark_one 42; mark_two 63; mark_one 45; mark_two 95; mark_one 95; mark_one 37; mark_one 43; mark_one 126; mark_one 94].
Proof. vm_compute. reflexivity. Qed.

(** ** Words *)
Definition wchar (c : N) : bool := in_cls letter c || in_cls digit c.
Lemma wchar_ne c d : wchar c = true -> wchar d = false -> c =? d = false.
Proof. intros H1 H2. apply N.eqb_neq. intros ->. congruence. Qed.
Lemma wchar_in c k : within letter k = true -> within digit k = true -> wchar c = true -> in_cls k c = true.
Proof. intros H1 H2 H. apply orb_prop in H as [H|H]; [eapply within_ok; [exact H1|exact H]|eapply within_ok; [exact H2|exact H]]. Qed.
Lemma wchar_out c k : within letter (not_cls k) = true -> within digit (not_cls k) = true -> wchar c = true -> in_cls k c = false.
Proof. intros H1 H2 H. pose proof (wchar_in c _ H1 H2 H) as E. rewrite in_not in E. apply negb_true_iff in E. exact E. Qed.
Lemma wchar_ws c : wchar c = true -> is_ws c = false.
Proof.
  intros H. pose proof (wchar_out c white ltac:(vm_compute; reflexivity) ltac:(vm_compute; reflexivity) H) as E. unfold in_cls, white in E. cbn [c_neg c_items existsb in_item has_prop] in E.
  destruct (is_ws c); [discriminate|reflexivity].
Qed.
Lemma wchar_skips c r : snd (verdicts r letter) = true -> snd (verdicts r digit) = true -> wchar c = true -> skips r c = true.
Proof. intros H1 H2 H. apply orb_prop in H as [H|H]; eapply verdicts_ok; eauto. Qed.
Lemma range_one d c : (d <=? c) && (c <=? d) = (c =? d).
Proof. destruct (N.eqb_spec c d) as [->|]; [rewrite N.leb_refl; reflexivity|]. destruct (N.leb_spec d c), (N.leb_spec c d); auto; lia. Qed.
(** One word, or several with single characters between them that are blanks or of words. *)
Definition word_text (w : str) : Prop :=
  (w <> [] /\ forallb wchar w = true) \/
  (exists x v y, w = x :: v ++ [y] /\ wchar x = true /\ wchar y = true /\ forallb (fun c => wchar c || (c =? 32)) v = true /\ In 32 v).
(** What may follow a span. *)
Definition follows (rest : str) : Prop :=
  rest = [] \/ (exists d r, rest = d :: r /\ (d = 32 \/ d = 10)) \/ (exists p d r, rest = p :: d :: r /\ In p (u ",:;!.") /\ (d = 32 \/ d = 10)).
(** What may come before a span. *)
Definition opens (before : str) : Prop := before = [] \/ exists d b, before = d :: b /\ (d = 32 \/ d = 10).
Definition mark_chars : str := [42; 63; 45; 95; 37; 43; 126; 94].
Lemma mark_wchar c : In c mark_chars -> wchar c = false.
Proof. intros H. repeat destruct H as [<-|H]; try destruct H; vm_compute; reflexivity. Qed.
Lemma mark_blank c : In c mark_chars -> 32 =? c = false.
Proof. intros H. repeat destruct H as [<-|H]; try destruct H; reflexivity. Qed.
Lemma mark_pn c : In c mark_chars -> in_cls pn_cls c = (c =? 63).
Proof. intros H. repeat destruct H as [<-|H]; try destruct H; vm_compute; reflexivity. Qed.
Lemma tail_ok rest b cs : follows rest -> m (RGroup 7 tail_re) (mk_mst b rest cs) Some = Some (mk_mst b rest ((7%nat, (rest, rest)) :: cs)).
Proof.
  intros H. rewrite m_group. unfold tail_re. destruct H as [->|[(d & r & -> & Hd)|(p & d & r & -> & Hp & Hd)]].
  - reflexivity.
  - rewrite m_alt_r by reflexivity. rewrite m_alt_r by (rewrite m_cls; destruct Hd as [-> | ->]; reflexivity). rewrite m_look. destruct Hd as [-> | ->]; reflexivity.
  - rewrite m_alt_r by reflexivity. change (In p [44; 58; 59; 33; 46]) in Hp. assert (Hp' : p = 44 \/ p = 58 \/ p = 59 \/ p = 33 \/ p = 46) by (cbn [In] in Hp; intuition).
    clear Hp. destruct Hp' as [->|[->|[->|[->| ->]]]]; destruct Hd as [-> | ->]; reflexivity.
Qed.

Lemma in_split_first v : In 32 v -> forallb (fun c => wchar c || (c =? 32)) v = true -> exists v1 v2, v = v1 ++ 32 :: v2 /\ forallb wchar v1 = true.
Proof.
  induction v as [|x v IH]; intros Hb Hv; [destruct Hb|]. cbn [forallb] in Hv. apply andb_prop in Hv as [Hx Hv]. destruct (N.eqb_spec x 32) as [->|Hn]; [exists [], v; auto|].
  destruct Hb as [Hb|Hb]; [congruence|]. destruct (IH Hb Hv) as (v1 & v2 & -> & H). exists (x :: v1), v2. split; [reflexivity|]. cbn [forallb]. rewrite H, andb_true_r. apply orb_prop in Hx as [Hx|Hx]; [exact Hx|discriminate].
Qed.
Section Mark.
Variables (c0 : N) (two : bool).
Hypothesis c0_in : In c0 mark_chars.
Hypothesis ok : two = true -> c0 = 42 \/ c0 = 63 \/ c0 = 95.
Hypothesis not_question : two = false -> c0 <> 63.
Definition mk : str := if two then [c0; c0] else [c0].
Definition mkre : re := if two then RSeq (RCls (ProofParse.one c0)) (RCls (ProofParse.one c0)) else RCls (ProofParse.one c0).
Definition mk_re : re := if two then mark_two c0 else mark_one c0.
Definition finre : re := if two then RSeq (RCls (ProofParse.one c0)) (RSeq (RCls (ProofParse.one c0)) (RGroup 7 tail_re)) else RSeq (RCls (ProofParse.one c0)) (RGroup 7 tail_re).
Definition mk_items : list citem := if two then [CRange c0 c0; CRange c0 c0] else [CRange c0 c0].
Lemma mk_re_shape : mk_re = span_shape mkre finre mk_items.
Proof. unfold mk_re, mkre, finre, mk_items. destruct two; reflexivity. Qed.
Lemma mk_eats before rest cs k : m mkre (mk_mst before (mk ++ rest) cs) k = k (mk_mst (rev mk ++ before) rest cs).
Proof. unfold mkre, mk. destruct two; cbn [app rev]; rewrite ?m_seq, m_cls, in_one, N.eqb_refl, ?m_cls, ?in_one, ?N.eqb_refl; reflexivity. Qed.
Lemma mk_not before x rest cs k : x =? c0 = false -> m mkre (mk_mst before (x :: rest) cs) k = None.
Proof. intros H. unfold mkre. destruct two; rewrite ?m_seq, m_cls, in_one, H; reflexivity. Qed.
Lemma fin_eq s k : m finre s k = m mkre s (fun s' => m (RGroup 7 tail_re) s' k).
Proof. unfold finre, mkre. destruct two; reflexivity. Qed.
Lemma items_eq c : existsb (fun i => in_item i c) mk_items = (c =? c0).
Proof. unfold mk_items. destruct two; cbn [existsb in_item]; rewrite range_one; destruct (c =? c0); reflexivity. Qed.
Lemma in_X c : in_cls (mk_cls true (CProp false PSpace :: mk_items)) c = negb (is_ws c || (c =? c0)).
Proof. unfold in_cls. cbn [c_neg c_items existsb in_item has_prop]. rewrite items_eq, xorb_false_l. destruct (is_ws c || (c =? c0)); reflexivity. Qed.
Lemma in_Y c : in_cls (mk_cls true (CProp false PSpace :: mk_items ++ [CRange 10 10])) c = negb (is_ws c || (c =? c0) || (c =? 10)).
Proof.
  unfold in_cls. cbn [c_neg c_items existsb in_item has_prop]. rewrite existsb_app, items_eq, xorb_false_l. cbn [existsb in_item]. rewrite range_one, orb_false_r, orb_assoc.
  destruct (is_ws c || (c =? c0) || (c =? 10)); reflexivity.
Qed.
Lemma wchar_mark c : wchar c = true -> c =? c0 = false.
Proof. intros H. apply wchar_ne; auto. apply mark_wchar; auto. Qed.
Lemma wchar_X c : wchar c = true -> in_cls (mk_cls true (CProp false PSpace :: mk_items)) c = true.
Proof. intros H. rewrite in_X, wchar_ws, wchar_mark by auto. reflexivity. Qed.
Lemma mark_not_X : in_cls (mk_cls true (CProp false PSpace :: mk_items)) c0 = false.
Proof. rewrite in_X, N.eqb_refl, orb_true_r. reflexivity. Qed.
Lemma wchar_Y c : wchar c = true -> in_cls (mk_cls true (CProp false PSpace :: mk_items ++ [CRange 10 10])) c = true.
Proof. intros H. rewrite in_Y, wchar_ws, wchar_mark by auto. rewrite (wchar_ne c 10) by (auto; vm_compute; reflexivity). reflexivity. Qed.
Lemma wchar_pn c : wchar c || (c =? 32) = true -> in_cls pn_cls c = false.
Proof. intros H. apply orb_prop in H as [H|H]; [apply wchar_out; auto; vm_compute; reflexivity|]. apply N.eqb_eq in H as ->. vm_compute. reflexivity. Qed.
Lemma blank_mark : 32 =? c0 = false.
Proof. apply mark_blank; auto. Qed.
Definition ending : mst -> option mst := fun s => m (RGroup 6 (RStar true (RCls pn_cls))) s (fun s' => m finre s' Some).
Lemma ending_none b x r cs : wchar x || (x =? 32) = true -> ending (mk_mst b (x :: r) cs) = None.
Proof.
  intros H. unfold ending. rewrite m_group. change (x :: r) with ([] ++ x :: r) at 1. apply m_star_none; [exact (wchar_pn x H)|]. intros w1 w2 E. destruct w1; [|discriminate]. cbn [app] in E. subst w2.
  cbn [rev app m_after m_before m_caps]. rewrite fin_eq. apply mk_not. apply orb_prop in H as [H|H]; [apply wchar_mark; auto|]. apply N.eqb_eq in H as ->. apply blank_mark.
Qed.
Lemma pn_mark : in_cls pn_cls c0 = (c0 =? 63).
Proof. apply mark_pn; auto. Qed.
Lemma follows_run rest : follows rest -> exists v r, rest = v ++ r /\ stops pn_cls r /\ forallb (in_cls pn_cls) v = true /\ (forall c, In c v -> c <> 63) /\ (r = [] \/ exists d q, r = d :: q /\ d <> 63).
Proof.
  intros [->|[(d & r & -> & Hd)|(p & d & r & -> & Hp & Hd)]].
  - exists [], []. repeat split; auto.
  - exists [], (d :: r). split; [reflexivity|]. split; [cbn [stops]; destruct Hd as [-> | ->]; vm_compute; reflexivity|]. split; [reflexivity|]. split; [intros c []|]. right. exists d, r. split; [reflexivity|]. destruct Hd as [-> | ->]; discriminate.
  - exists [p], (d :: r). split; [reflexivity|]. split; [cbn [stops]; destruct Hd as [-> | ->]; vm_compute; reflexivity|]. change (In p [44; 58; 59; 33; 46]) in Hp. cbn [In] in Hp.
    assert (Hp' : p = 44 \/ p = 58 \/ p = 59 \/ p = 33 \/ p = 46) by intuition. clear Hp. split; [destruct Hp' as [->|[->|[->|[->| ->]]]]; vm_compute; reflexivity|].
    split; [intros c [<-|[]]; destruct Hp' as [->|[->|[->|[->| ->]]]]; discriminate|]. right. exists d, r. split; [reflexivity|]. destruct Hd as [-> | ->]; discriminate.
Qed.
Lemma ending_ok b rest cs : follows rest -> ending (mk_mst b (mk ++ rest) cs) =
  Some (mk_mst (rev mk ++ b) rest ((7%nat, (rest, rest)) :: (6%nat, (mk ++ rest, mk ++ rest)) :: cs)).
Proof.
  intros H. unfold ending. rewrite m_group.
  assert (E : m finre (mk_mst b (mk ++ rest) ((6%nat, (mk ++ rest, mk ++ rest)) :: cs)) Some = Some (mk_mst (rev mk ++ b) rest ((7%nat, (rest, rest)) :: (6%nat, (mk ++ rest, mk ++ rest)) :: cs))).
  { rewrite fin_eq, mk_eats. apply tail_ok. exact H. }
  destruct (N.eqb_spec c0 63) as [Eq|Nq].
  - assert (Et : two = true) by (destruct two; [reflexivity|destruct (not_question eq_refl Eq)]). destruct (follows_run rest H) as (v & r & -> & Hs & Hv & Hq & Hr).
    assert (Em : mk ++ v ++ r = [] ++ (mk ++ v) ++ r) by (cbn [app]; rewrite app_assoc; reflexivity). rewrite Em at 1. apply m_star_back.
    + cbn [app]. rewrite forallb_app, Hv, andb_true_r. unfold mk. rewrite Et, Eq. vm_compute. reflexivity.
    + exact Hs.
    + cbn [rev app m_after m_before m_caps]. rewrite <- !app_assoc. exact E.
    + intros v1 v2 x Ev. cbn [rev app m_after m_before m_caps]. rewrite fin_eq. revert Ev. unfold mk, mkre. rewrite Et, Eq. cbn [app]. intros Ev.
      destruct v1 as [|y1 v1]; [|destruct v1 as [|y2 v1]]; cbn [app] in Ev.
      * injection Ev as E1 Ev. subst v2. cbn [app]. rewrite m_seq, m_cls, in_one, N.eqb_refl.
        destruct v as [|y v]; [destruct Hr as [->|(d & q & -> & Hd)]; cbn [app]; [apply m_cls_nil|]; rewrite m_cls, in_one; apply N.eqb_neq in Hd; rewrite Hd; reflexivity|].
        cbn [app]. rewrite m_cls, in_one. assert (y =? 63 = false) as -> by (apply N.eqb_neq, Hq; left; reflexivity). reflexivity.
      * injection Ev as E1 E2 Ev. subst v2. destruct v as [|y v].
        -- cbn [app]. destruct Hr as [->|(d & q & -> & Hd)]; [reflexivity|]. rewrite m_seq, m_cls, in_one. apply N.eqb_neq in Hd; rewrite Hd; reflexivity.
        -- cbn [app]. rewrite m_seq, m_cls, in_one. assert (y =? 63 = false) as -> by (apply N.eqb_neq, Hq; left; reflexivity). reflexivity.
      * injection Ev as E1 E2 Ev. rewrite m_seq. destruct v2 as [|y v2].
        -- cbn [app]. destruct Hr as [->|(d & q & -> & Hd)]; [reflexivity|]. rewrite m_cls, in_one. apply N.eqb_neq in Hd; rewrite Hd; reflexivity.
        -- cbn [app]. rewrite m_cls, in_one. assert (y =? 63 = false) as ->; [|reflexivity]. apply N.eqb_neq, Hq. rewrite Ev. apply in_or_app. right. left. reflexivity.
  - assert (Em : mk ++ rest = [] ++ [] ++ (mk ++ rest)) by reflexivity. rewrite Em at 1. apply m_star_back; [reflexivity| |exact E|intros [|? ?] ? ? F; discriminate].
    apply N.eqb_neq in Nq. assert (exists r, mk ++ rest = c0 :: r) as (r & ->) by (unfold mk; destruct two; cbn [app]; eauto). cbn [stops]. rewrite pn_mark. exact Nq.
Qed.
Lemma word_head w : word_text w -> exists x v, w = x :: v /\ wchar x = true.
Proof.
  intros [[Hn H]|(x & v & y & -> & Hx & _)]; [|eauto]. destruct w as [|x v]; [congruence|]. cbn [forallb] in H. apply andb_prop in H as [H _]. eauto.
Qed.
Definition content_re : re := RAlt (RSeq (RCls (mk_cls true (CProp false PSpace :: mk_items))) (RStar true (RCls (mk_cls true (CProp false PSpace :: mk_items)))))
  (RSeq (RCls solid) (RSeq (RStar false (RCls not_newline)) (RCls (mk_cls true (CProp false PSpace :: mk_items ++ [CRange 10 10]))))).
Lemma mk_head rest : exists r, mk ++ rest = c0 :: r.
Proof. unfold mk. destruct two; cbn [app]; eauto. Qed.
Lemma content_ok b w rest cs : word_text w -> follows rest ->
  m (RGroup 5 content_re) (mk_mst b (w ++ mk ++ rest) cs) ending =
  Some (mk_mst (rev mk ++ rev w ++ b) rest ((7%nat, (rest, rest)) :: (6%nat, (mk ++ rest, mk ++ rest)) :: (5%nat, (w ++ mk ++ rest, mk ++ rest)) :: cs)).
Proof.
  intros Hw Hr. rewrite m_group. unfold content_re. destruct Hw as [[Hn H]|(x & v & y & -> & Hx & Hy & Hv & Hb)].
  - apply m_alt_l. destruct w as [|x v]; [congruence|]. cbn [forallb] in H. apply andb_prop in H as [Hx H]. cbn [app]. rewrite m_seq, m_cls, wchar_X by auto. apply m_star_greedy.
    + rewrite forallb_forall in *. intros c Hc. apply wchar_X; auto.
    + destruct (mk_head rest) as (r & ->). exact mark_not_X.
    + cbn [m_before m_after m_caps]. rewrite ending_ok by auto. cbn [rev]. rewrite <- !app_assoc. reflexivity.
  - rewrite m_alt_r.
    + cbn [app]. rewrite m_seq, m_cls. assert (in_cls solid x = true) as -> by (unfold in_cls, solid; cbn [c_neg c_items existsb in_item has_prop]; rewrite wchar_ws by auto; reflexivity).
      rewrite m_seq. rewrite <- !app_assoc. apply m_star_lazy.
      * apply forallb_forall. intros c Hc. rewrite forallb_forall in Hv. specialize (Hv c Hc). apply orb_prop in Hv as [Hv|Hv]; [apply wchar_in; auto; vm_compute; reflexivity|]. apply N.eqb_eq in Hv as ->. vm_compute. reflexivity.
      * intros w1 z w2 Ew. rewrite m_cls. destruct (in_cls (mk_cls true _) z); [|reflexivity]. cbn [m_before m_after m_caps].
        destruct w2 as [|z2 w2]; cbn [app]; apply ending_none; [rewrite Hy; reflexivity|]. rewrite forallb_forall in Hv. apply Hv. rewrite Ew. apply in_or_app. right. right. left. reflexivity.
      * cbn [app]. rewrite m_cls, wchar_Y by auto. cbn [m_before m_after m_caps]. rewrite ending_ok by auto. cbn [rev]. rewrite rev_app_distr. cbn [rev app]. rewrite <- !app_assoc. reflexivity.
    + cbn [app]. rewrite m_seq, m_cls, wchar_X by auto. destruct (in_split_first v Hb Hv) as (v1 & v2 & -> & Hv1). rewrite <- !app_assoc. cbn [app].
      apply m_star_none; [cbn [stops]; rewrite in_X; reflexivity|]. intros w1 w2 Ew. cbn [m_before m_after m_caps]. destruct w2 as [|z w2]; cbn [app]; apply ending_none; [reflexivity|].
      rewrite forallb_forall in Hv1. rewrite Hv1; [reflexivity|]. rewrite Ew. apply in_or_app. right. left. reflexivity.
Qed.
Lemma mark_hit before w rest : opens before -> word_text w -> follows rest ->
  match_at mk_re before (mk ++ w ++ mk ++ rest) =
  Some (mk_mst (rev (mk ++ w ++ mk) ++ before) rest
    [(7%nat, (rest, rest)); (6%nat, (mk ++ rest, mk ++ rest)); (5%nat, (w ++ mk ++ rest, mk ++ rest)); (3%nat, (w ++ mk ++ rest, w ++ mk ++ rest));
     (2%nat, (mk ++ w ++ mk ++ rest, w ++ mk ++ rest)); (1%nat, (mk ++ w ++ mk ++ rest, mk ++ w ++ mk ++ rest))]).
Proof.
  intros Ho Hw Hr. unfold match_at. rewrite mk_re_shape. unfold span_shape. rewrite m_seq, m_group.
  assert (E : forall cs, m (RSeq (RGroup 2 mkre) (RSeq (RNLook mkre) (RSeq (RGroup 3 att_re) (RSeq (RNLook mkre)
      (RSeq (RAlt (RSeq (RCls (ProofParse.one 58)) (RGroup 4 (RSeq (RSeq (RCls solid) (RStar true (RCls solid))) (RSeq (RCls (mk_cls true mk_items)) (RCls white))))) REps)
      (RSeq (RGroup 5 content_re) (RSeq (RGroup 6 (RStar true (RCls pn_cls))) finre))))))) (mk_mst before (mk ++ w ++ mk ++ rest) cs) Some =
    Some (mk_mst (rev (mk ++ w ++ mk) ++ before) rest
    ([(7%nat, (rest, rest)); (6%nat, (mk ++ rest, mk ++ rest)); (5%nat, (w ++ mk ++ rest, mk ++ rest)); (3%nat, (w ++ mk ++ rest, w ++ mk ++ rest));
     (2%nat, (mk ++ w ++ mk ++ rest, w ++ mk ++ rest))] ++ cs))).
  { intros cs. destruct (word_head w Hw) as (x & v & Ew & Hx). rewrite m_seq, m_group, mk_eats. cbn [m_before m_after m_caps]. set (t1 := w ++ mk ++ rest). set (t0 := mk ++ t1).
    assert (Et1 : t1 = x :: v ++ mk ++ rest) by (unfold t1; rewrite Ew; reflexivity).
    rewrite m_seq, m_nlook. rewrite Et1 at 1. rewrite mk_not by (apply wchar_mark; auto). rewrite m_seq, m_group. rewrite Et1 at 1.
    rewrite m_skip by (apply wchar_skips; auto; vm_compute; reflexivity). cbn [m_before m_after m_caps]. rewrite <- Et1.
    rewrite m_seq, m_nlook. rewrite Et1 at 1. rewrite mk_not by (apply wchar_mark; auto). rewrite m_seq, m_alt_r, m_eps.
    2:{ rewrite Et1. rewrite m_seq, m_cls, in_one, (wchar_ne x 58) by (auto; vm_compute; reflexivity). reflexivity. }
    rewrite m_seq. change (fun s' : mst => m (RSeq (RGroup 6 (RStar true (RCls pn_cls))) finre) s' Some) with ending. unfold t1 at 1. rewrite content_ok by auto.
    rewrite !rev_app_distr, <- !app_assoc. reflexivity. }
  destruct Ho as [->|(d & b & -> & Hd)].
  - apply m_alt_l. rewrite m_assert. cbn [assert_holds is_empty]. cbn [m_before m_after m_caps]. exact (E _).
  - rewrite m_alt_r by reflexivity. apply m_alt_l. rewrite m_back. assert (in_cls before_cls d = true) as -> by (destruct Hd as [-> | ->]; vm_compute; reflexivity). cbn [m_before m_after m_caps]. exact (E _).
Qed.
(** Where the pattern does not match. *)
Lemma mark_miss before x rest : x =? 123 = false -> x =? 91 = false -> starts_with mk (x :: rest) = false \/ (exists d b, before = d :: b /\ in_cls before_cls d = false) ->
  match_at mk_re before (x :: rest) = None.
Proof.
  intros H1 H2 H. unfold match_at. rewrite mk_re_shape. unfold span_shape. rewrite m_seq, m_group.
  assert (Hb : in_cls brace_cls x = false).
  { unfold in_cls, brace_cls. cbn [c_neg c_items existsb in_item]. rewrite !range_one, H1, H2. reflexivity. }
  assert (K : starts_with mk (x :: rest) = false -> forall b cs k, m (RSeq (RGroup 2 mkre) k) (mk_mst b (x :: rest) cs) Some = None).
  { intros E b cs k. rewrite m_seq, m_group. unfold mk in E. unfold mkre. destruct two.
    - rewrite m_seq, m_cls, in_one. cbn [starts_with] in E. rewrite (N.eqb_sym x c0). destruct (c0 =? x); [|reflexivity]. cbn [andb] in E. destruct rest as [|y rest]; [apply m_cls_nil|]. rewrite m_cls, in_one, (N.eqb_sym y c0).
      cbn [starts_with] in E. destruct (c0 =? y); [|reflexivity]. discriminate.
    - rewrite m_cls, in_one. cbn [starts_with] in E. rewrite (N.eqb_sym x c0). destruct (c0 =? x); [discriminate|reflexivity]. }
  rewrite m_alt_r; [rewrite m_alt_r; [rewrite m_cls, Hb; reflexivity|]|].
  - destruct H as [H|(d & b & -> & Hd)]; [destruct before; [reflexivity|]; rewrite m_back; destruct (in_cls before_cls _); [|reflexivity]; apply K; exact H|]. rewrite m_back, Hd. reflexivity.
  - rewrite m_assert. destruct H as [H|(d & b & -> & Hd)]; [|reflexivity]. destruct (assert_holds _ _ _); [|reflexivity]. apply K. exact H.
Qed.
Lemma mark_nil before : match_at mk_re before [] = None.
Proof.
  unfold match_at. rewrite mk_re_shape. unfold span_shape. rewrite m_seq, m_group.
  assert (K : forall b cs k, m (RSeq (RGroup 2 mkre) k) (mk_mst b [] cs) Some = None) by (intros b cs k; rewrite m_seq, m_group; unfold mkre; destruct two; reflexivity).
  rewrite m_alt_r; [rewrite m_alt_r; [reflexivity|]|].
  - destruct before; [reflexivity|]; rewrite m_back; destruct (in_cls before_cls _); [|reflexivity]; apply K.
  - rewrite m_assert. destruct (assert_holds _ _ _); [|reflexivity]. apply K.
Qed.
End Mark.
