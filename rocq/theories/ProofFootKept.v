(** References lead to their footnotes. *)
From Verif Require Import Str Unicode Regex RegexAuto ModelBase ModelHtml ModelInline ModelParser SpecPlain SpecText SpecDoc SpecLists ProofSections SpecFootnotes ProofFootnotes.
#[local] Arguments u : simpl never.
Section Kept.
Variable prefix : str.
Lemma known_more n l l' i : known n l = Some i -> known n (l ++ l') = Some i.
Proof. induction l as [|[k j] l IH]; cbn [known app]; [discriminate|]. destruct (seqb k n); auto. Qed.
Lemma known_last n l i : known n l = None -> known n (l ++ [(n, i)]) = Some i.
Proof. induction l as [|[k j] l IH]; cbn [known app]; [rewrite seqb_refl; reflexivity|]. destruct (seqb k n); [discriminate|auto]. Qed.
Lemma reference_keeps n i r c : known n (fst c) = Some i -> known n (fst (snd (reference_html prefix r c))) = Some i.
Proof. intros H. destruct r as [[k p] t]. unfold reference_html. destruct (known k (fst c)); cbn [fst snd]; [exact H|apply known_more, H]. Qed.
Lemma references_cons r l c : references_html prefix (r :: l) c = (fst (reference_html prefix r c) ++ fst (references_html prefix l (snd (reference_html prefix r c))), snd (references_html prefix l (snd (reference_html prefix r c)))).
Proof. cbn [references_html]. destruct (reference_html prefix r c) as [x c1]. cbn [fst snd]. destruct (references_html prefix l c1). reflexivity. Qed.
Lemma references_keep n i l : forall c, known n (fst c) = Some i -> known n (fst (snd (references_html prefix l c))) = Some i.
Proof. induction l as [|r l IH]; intros c H; [exact H|]. rewrite references_cons. cbn [snd]. apply IH, reference_keeps, H. Qed.
Lemma passage_keeps n i p c : known n (fst c) = Some i -> known n (fst (snd (passage_html prefix p c))) = Some i.
Proof.
  intros H. destruct p as [t l|k back t]; cbn [passage_html].
  - pose proof (references_keep n i l c H) as K. destruct (references_html prefix l c). exact K.
  - destruct (known k (fst c)); exact H.
Qed.
Lemma reference_link n w c : exists i x y, fst (reference_html prefix (n, false, w) c) = x ++ link_to (u "fn" ++ name prefix i) n ++ y /\ known n (fst (snd (reference_html prefix (n, false, w) c))) = Some i.
Proof.
  unfold reference_html. destruct (known n (fst c)) as [i|] eqn:E; cbn [fst snd].
  - exists i, (u "<sup class=""footnote"">"), (u "</sup>" ++ w). split; [reflexivity|exact E].
  - exists (snd c + 1), (u "<sup class=""footnote"" id=""fnrev" ++ name prefix (snd c + 1) ++ u """>"), (u "</sup>" ++ w). split; [rewrite <- !app_assoc; reflexivity|apply known_last, E].
Qed.
Lemma references_link n w l : forall c, In (n, false, w) l -> exists i x y, fst (references_html prefix l c) = x ++ link_to (u "fn" ++ name prefix i) n ++ y /\ known n (fst (snd (references_html prefix l c))) = Some i.
Proof.
  induction l as [|r l IH]; intros c H; [destruct H|]. rewrite references_cons. cbn [fst snd]. destruct H as [->|H].
  - destruct (reference_link n w c) as (i & x & y & E & K). exists i, x, (y ++ fst (references_html prefix l (snd (reference_html prefix (n, false, w) c)))). split; [rewrite E, <- !app_assoc; reflexivity|apply references_keep, K].
  - destruct (IH (snd (reference_html prefix r c)) H) as (i & x & y & E & K). exists i, (fst (reference_html prefix r c) ++ x), y. split; [rewrite E, <- !app_assoc; reflexivity|exact K].
Qed.
Fixpoint table_after (l : list passage) (c : SpecFootnotes.table) : SpecFootnotes.table := match l with [] => c | p :: l' => table_after l' (snd (passage_html prefix p c)) end.
Lemma passages_cons p l c : passages_html prefix (p :: l) c = fst (passage_html prefix p c) :: passages_html prefix l (snd (passage_html prefix p c)).
Proof. cbn [passages_html]. destruct (passage_html prefix p c). reflexivity. Qed.
Lemma passages_app a b : forall c, passages_html prefix (a ++ b) c = passages_html prefix a c ++ passages_html prefix b (table_after a c).
Proof. induction a as [|p a IH]; intros c; [reflexivity|]. cbn [app table_after]. rewrite !passages_cons, IH. reflexivity. Qed.
Lemma after_keeps n i l : forall c, known n (fst c) = Some i -> known n (fst (table_after l c)) = Some i.
Proof. induction l as [|p l IH]; intros c H; [exact H|]. cbn [table_after]. apply IH, passage_keeps, H. Qed.
(** Texts inside of sections. *)
Lemma sections_in x : forall l, In x l -> exists p q, sections l = p ++ x ++ q.
Proof.
  induction l as [|h l IH]; intros H; [destruct H|]. destruct l as [|h2 l].
  - destruct H as [->|[]]. exists [], []. cbn [sections app]. rewrite app_nil_r. reflexivity.
  - rewrite sections_cons by discriminate. destruct H as [->|H]; [exists [], (10 :: 10 :: sections (h2 :: l)); reflexivity|].
    destruct (IH H) as (p & q & E). exists (h ++ 10 :: 10 :: p), q. rewrite E, <- !app_assoc. reflexivity.
Qed.
Lemma sections_two x y a b : In x a -> In y b -> exists p q r, sections (a ++ b) = p ++ x ++ q ++ y ++ r.
Proof.
  intros Hx Hy. revert Hx. induction a as [|h a IH]; intros Hx; [destruct Hx|]. cbn [app]. assert (a ++ b <> []) as Hn by (destruct a; [destruct b; [destruct Hy|]|]; discriminate).
  rewrite sections_cons by exact Hn. destruct Hx as [->|Hx].
  - assert (In y (a ++ b)) as Hi by (apply in_or_app; right; exact Hy). destruct (sections_in y _ Hi) as (p & q & E). exists [], (10 :: 10 :: p), q. rewrite E. reflexivity.
  - destruct (IH Hx) as (p & q & r & E). exists (h ++ 10 :: 10 :: p), q, r. rewrite E, <- !app_assoc. reflexivity.
Qed.
Lemma sections_three (x y : str) a b d : exists p q r, sections (a ++ x :: b ++ y :: d) = p ++ x ++ q ++ y ++ r.
Proof.
  destruct (sections_two x y (a ++ [x]) (b ++ y :: d)) as (p & q & r & E); [apply in_or_app; right; left; reflexivity|apply in_or_app; right; left; reflexivity|].
  exists p, q, r. rewrite <- E, <- app_assoc. reflexivity.
Qed.
Lemma line_link t rs c n w : In (n, false, w) rs -> exists i x y, fst (passage_html prefix (Line t rs) c) = x ++ link_to (u "fn" ++ name prefix i) n ++ y /\ known n (fst (snd (passage_html prefix (Line t rs) c))) = Some i.
Proof.
  intros H. destruct (references_link n w rs c H) as (i & x & y & E & K). cbn [passage_html]. destruct (references_html prefix rs c) as [h c1]. cbn [fst snd] in *. subst h.
  exists i, (u "<" ++ u "p" ++ u ">" ++ t ++ x), (y ++ u "</" ++ u "p" ++ u ">"). split; [|exact K]. unfold element. rewrite <- !app_assoc. reflexivity.
Qed.
Lemma note_id n back t c i : known n (fst c) = Some i -> exists y, fst (passage_html prefix (Footnote n back t) c) = (u "<p class=""footnote"" id=""fn" ++ name prefix i ++ u """>") ++ y.
Proof.
  intros H. cbn [passage_html]. rewrite H. cbn [fst]. exists (u "<sup>" ++ (if back then link_to (u "fnrev" ++ name prefix i) n else n) ++ u "</sup> " ++ t ++ u "</p>").
  assert (u """><sup>" = u """>" ++ u "<sup>") as -> by (vm_compute; reflexivity). rewrite <- !app_assoc. reflexivity.
Qed.
Lemma note_link n t c i : known n (fst c) = Some i -> exists x y, fst (passage_html prefix (Footnote n true t) c) = x ++ link_to (u "fnrev" ++ name prefix i) n ++ y.
Proof.
  intros H. cbn [passage_html]. rewrite H. cbn [fst]. exists (u "<p class=""footnote"" id=""fn" ++ name prefix i ++ u """><sup>"), (u "</sup> " ++ t ++ u "</p>"). rewrite <- !app_assoc. reflexivity.
Qed.
Lemma links_meet a t rs b n w back t' d c : In (n, false, w) rs ->
  exists i p q r, sections (passages_html prefix (a ++ Line t rs :: b ++ Footnote n back t' :: d) c) =
    p ++ link_to (u "fn" ++ name prefix i) n ++ q ++ (u "<p class=""footnote"" id=""fn" ++ name prefix i ++ u """>") ++ r.
Proof.
  intros H. rewrite passages_app, passages_cons, passages_app, passages_cons. set (c0 := table_after a c). destruct (line_link t rs c0 n w H) as (i & x & y & E & K).
  set (c1 := snd (passage_html prefix (Line t rs) c0)) in *. pose proof (after_keeps n i b c1 K) as K2. destruct (note_id n back t' (table_after b c1) i K2) as (z & Ez). rewrite E, Ez.
  destruct (sections_three (x ++ link_to (u "fn" ++ name prefix i) n ++ y) ((u "<p class=""footnote"" id=""fn" ++ name prefix i ++ u """>") ++ z) (passages_html prefix a c) (passages_html prefix b c1) (passages_html prefix d (snd (passage_html prefix (Footnote n back t') (table_after b c1))))) as (p & q & r & Es).
  exists i, (p ++ x), (y ++ q), (z ++ r). etransitivity; [exact Es|]. rewrite <- !app_assoc. reflexivity.
Qed.
End Kept.
Lemma footnotes_meet W T fuel l html s : ready T -> t_lite T = false -> prefix_ok (t_link_prefix T) -> (0 < fuel)%nat -> Forall proper_passage l ->
  parse W T fuel [] (sections (map passage_source l)) = Ret html s ->
  forall a t rs b n w back t' d, l = a ++ Line t rs :: b ++ Footnote n back t' :: d -> In (n, false, w) rs ->
  exists i p q r, html = p ++ u "<a href=""#fn" ++ (t_link_prefix T ++ dec i) ++ u """>" ++ n ++ u "</a>" ++ q ++ u "<p class=""footnote"" id=""fn" ++ (t_link_prefix T ++ dec i) ++ u """>" ++ r.
Proof.
  intros Hr Hl Hp Hf H E a t rs b n w back t' d -> Hi. destruct (footnotes_document W T (proj1 Hr) Hl Hp fuel _ Hr Hf H) as (s2 & E2). rewrite E2 in E. 
  assert (html = sections (passages_html (t_link_prefix T) (a ++ Line t rs :: b ++ Footnote n back t' :: d) ([], 0))) as -> by (clear - E; congruence). destruct (links_meet (t_link_prefix T) a t rs b n w back t' d ([], 0) Hi) as (i & p & q & r & Em). exists i, p, q, r. rewrite Em. unfold link_to, name.
  assert (u "<a href=""#fn" = u "<a href=""#" ++ u "fn") as -> by (vm_compute; reflexivity). rewrite <- !app_assoc. reflexivity.
Qed.
