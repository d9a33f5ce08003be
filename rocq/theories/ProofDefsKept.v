(** The words of definition lists. *)
From Verif Require Import Str ModelBase ModelParser SpecNewlines SpecDoc SpecPlain SpecLists SpecDefs ProofParas ProofLinks ProofDocument ProofDefs.
#[local] Arguments u : simpl never.

Lemma join_in (l : list str) x : In x l -> exists a b, join [10] l = a ++ x ++ b.
Proof.
  induction l as [|y l IH]; intros H; [destruct H|]. destruct l as [|z l].
  - destruct H as [<-|[]]. exists [], []. cbn. rewrite app_nil_r. reflexivity.
  - change (join [10] (y :: z :: l)) with (y ++ [10] ++ join [10] (z :: l)). destruct H as [<-|H]; [exists [], ([10] ++ join [10] (z :: l)); reflexivity|].
    destruct (IH H) as (a & b & ->). exists (y ++ [10] ++ a), b. rewrite <- !app_assoc. reflexivity.
Qed.
Lemma sections_in (l : list str) x : In x l -> exists a b, sections l = a ++ x ++ b.
Proof.
  induction l as [|y l IH]; intros H; [destruct H|]. destruct l as [|z l].
  - destruct H as [<-|[]]. exists [], []. cbn. rewrite app_nil_r. reflexivity.
  - change (sections (y :: z :: l)) with (y ++ [10; 10] ++ sections (z :: l)). destruct H as [<-|H]; [exists [], ([10; 10] ++ sections (z :: l)); reflexivity|].
    destruct (IH H) as (a & b & ->). exists (y ++ [10; 10] ++ a), b. rewrite <- !app_assoc. reflexivity.
Qed.
Lemma passages_in l : forall c hs p, passages_html l c = Some hs -> In (Defs p) l -> In (defs_html p) hs.
Proof.
  induction l as [|q l IH]; intros c hs p E H; [destruct H|]. cbn [passages_html] in E. destruct (passage_html q c) as [[x c1]|] eqn:E1; [|discriminate]. destruct (passages_html l c1) as [xs|] eqn:E2; [|discriminate].
  inversion E; subst. destruct H as [->|H]; [|right; eauto]. cbn [passage_html] in E1. inversion E1; subst. left. reflexivity.
Qed.
Lemma entry_shown t o l : In (t, o) l -> (exists a b, defs_html l = a ++ (u "	<dt>" ++ t ++ u "</dt>") ++ b) /\ (forall d, o = Some d -> exists a b, defs_html l = a ++ (u "	<dd>" ++ d ++ u "</dd>") ++ b).
Proof.
  intros H. unfold defs_html. split; [|intros d ->]; apply join_in; right; apply in_or_app; left; apply in_flat_map; [exists (t, o)|exists (t, Some d)]; (split; [exact H|]); unfold entry_html; cbn [fst snd]; [left; reflexivity|right; left; reflexivity].
Qed.
Lemma defs_kept W T fuel l html s : ready T -> t_lite T = false -> (1 < fuel)%nat -> Forall proper_passage l ->
  parse W T fuel [] (sections (map passage_source l)) = Ret html s ->
  forall es t o, In (Defs es) l -> In (t, o) es -> (exists a b, html = a ++ u "<dt>" ++ t ++ u "</dt>" ++ b) /\ (forall d, o = Some d -> exists a b, html = a ++ u "<dd>" ++ d ++ u "</dd>" ++ b).
Proof.
  intros Hr Hl Hf Hp E es t o H1 H2. pose proof (defs_document W T (proj1 Hr) Hl fuel l Hr Hf Hp) as D. destruct (passages_html l from_one) as [hs|] eqn:Eh; [|congruence].
  destruct D as (s' & D). rewrite D in E. inversion E; subst html. clear E D. destruct (sections_in hs _ (passages_in l _ hs es Eh H1)) as (a & b & ->). destruct (entry_shown t o es H2) as [(a1 & b1 & E1) G].
  split.
  - rewrite E1. exists (a ++ a1 ++ [9]), (b1 ++ b). rewrite <- !app_assoc. reflexivity.
  - intros d Hd. destruct (G d Hd) as (a2 & b2 & E2). rewrite E2. exists (a ++ a2 ++ [9]), (b2 ++ b). rewrite <- !app_assoc. reflexivity.
Qed.
