(** Placeholders in whole documents. *)
From Coq Require Import List NArith Lia Bool.
From Verif Require Import Str Regex ModelBase ModelHtml ModelInline ModelParser Lib SpecPlain SpecDoc SpecState SpecNewlines SpecShelf Samples
  ProofParas ProofSections ProofNewlines ProofPlain ProofBlocks ProofDocument ProofShelf ProofFuel ProofLinks ProofTags.
Import ListNotations.
Local Open Scope N_scope.
#[local] Arguments u : simpl never.

(** ** Restoration *)
Lemma restored fuel T s fs ps : simple_uid (t_uid T) -> ps_shelf s = store_of (t_uid T) fs -> earlier [] fs -> known fs ps ->
  exists qs, stands_for fs (S (List.length fs)) ps qs /\ (forall i, ~ In (Mark Fragment i) qs) /\
    (only_marks (t_uid T) qs -> (S (List.length fs) < fuel)%nat -> retrieve fuel (render (t_uid T) ps) s = Ret (render (t_uid T) qs) s).
Proof.
  intros Hu Hs He Hk. destruct (ordered_stands fs ps He Hk) as (D & qs & Q). exists qs. split; auto. split; [eapply sf_no_mark; eauto|].
  intros C L. unfold retrieve, bind, get. rewrite Hs. eapply loop_ends; eauto.
Qed.
Lemma restored_any fuel T s fs d ps qs : simple_uid (t_uid T) -> ps_shelf s = store_of (t_uid T) fs -> NoDup (map fst fs) -> stands_for fs d ps qs ->
  only_marks (t_uid T) qs -> (d < fuel)%nat -> retrieve fuel (render (t_uid T) ps) s = Ret (render (t_uid T) qs) s.
Proof. intros Hu Hs D Q C L. unfold retrieve, bind, get. rewrite Hs. eapply loop_ends; eauto. Qed.

(** ** A document whose fragment contains its own placeholder *)
Definition m1 : str := mark_text (t_uid T0) Fragment 1.
Lemma m1_uid : simple_uid (t_uid T0).
Proof. exists (u "abc"). split; [reflexivity|]. intros c [<-|[<-|[<-|[]]]]; vm_compute; tauto. Qed.
Lemma xs_marks n : only_marks (t_uid T0) [Lit (u "<p>" ++ repeat 120 n); Mark Fragment 1; Lit (u "</p>")].
Proof.
  assert (forall x y, u "<p>" ++ repeat 120 n <> x ++ t_uid T0 ++ y) as A.
  { intros x y E. assert (In 116 (u "<p>" ++ repeat 120 n)) as F by (rewrite E; apply in_or_app; right; left; reflexivity).
    apply in_app_or in F. destruct F as [F|F]; [vm_compute in F; intuition discriminate|]. apply repeat_spec in F. discriminate. }
  intros a ls b x y E F. destruct a as [|p a].
  - destruct ls as [|t ls]; [cbn [List.concat] in F; destruct x; discriminate|]. inversion E; subst t. destruct ls as [|t ls]; [|discriminate].
    cbn [List.concat] in F. rewrite app_nil_r in F. apply A in F. auto.
  - inversion E; subst p. destruct a as [|p a].
    + destruct ls as [|t ls]; [cbn [List.concat] in F; destruct x; discriminate|]. discriminate.
    + inversion H1; subst p. destruct a as [|p a].
      * destruct ls as [|t ls]; [cbn [List.concat] in F; destruct x; discriminate|]. inversion H2; subst. destruct ls; [|discriminate].
        apply (f_equal (@List.length N)) in F. rewrite !app_length in F. change (List.length (t_uid T0)) with 15%nat in F. cbn [List.concat] in F. rewrite app_nil_r in F.
        change (List.length (u "</p>")) with 4%nat in F. lia.
      * inversion H2; subst. destruct a; [|discriminate]. destruct ls; [|discriminate]. cbn [List.concat] in F. destruct x; discriminate.
Qed.
Lemma self_diverges n : forall k s, retrieve_loop n [(m1, 120 :: m1)] ((u "<p>" ++ repeat 120 k) ++ m1 ++ u "</p>") s = Diverge.
Proof.
  induction n as [|n IH]; intros k s; [reflexivity|]. cbn [retrieve_loop].
  assert (retrieve_pass [(m1, 120 :: m1)] ((u "<p>" ++ repeat 120 k) ++ m1 ++ u "</p>") = (u "<p>" ++ repeat 120 (S k)) ++ m1 ++ u "</p>") as E.
  { unfold retrieve_pass. cbn [fold_left fst snd]. pose proof (replace_put (t_uid T0) m1_uid 1 [Lit [120]; Mark Fragment 1] _ (xs_marks k)) as E.
    unfold render, put in E. cbn [flat_map app N.eqb Pos.eqb] in E. rewrite !app_nil_r in E. unfold m1. etransitivity; [exact E|].
    change (repeat 120 (S k)) with (120 :: repeat 120 k). rewrite repeat_cons. rewrite <- !app_assoc. reflexivity. }
  rewrite E. destruct (seqb _ _) eqn:Q; [|apply IH]. apply seqb_eq in Q. apply (f_equal (@List.length N)) in Q. rewrite !app_length in Q. cbn [repeat List.length] in Q. lia.
Qed.
Notation circular := (u "==xtextileReftextileRef:abc::abc:1:shelve==").
Lemma circular_block W : exists s, (text <- block W T0 (graf W T0 5) (prepare T0 circular) ;; place_note_lists T0 text) (new_state []) = Ret (u "<p>" ++ m1 ++ u "</p>") s /\
  ps_shelf s = [(m1, 120 :: m1)].
Proof. eexists. split; vm_compute; reflexivity. Qed.
Lemma circular_diverges W fuel : parse W T0 fuel [] (u "==xtextileReftextileRef:abc::abc:1:shelve==") = Diverge.
Proof.
  apply (never_returns W T0 5). intros n L. unfold parse, parse_m. replace (is_empty (trim circular)) with false by (vm_compute; reflexivity). cbv zeta.
  change (t_block_tags T0) with true. cbv iota. destruct (circular_block W) as (s & E & Es).
  assert (upto (text <- block W T0 (graf W T0 5) (prepare T0 circular) ;; place_note_lists T0 text) (text <- block W T0 (graf W T0 n) (prepare T0 circular) ;; place_note_lists T0 text)) as U.
  { apply upto_bind; [|intros; apply upto_refl]. apply block_more. intros t. apply graf_more; auto. }
  destruct (U (new_state [])) as [F|F]; [rewrite E in F; discriminate|]. unfold bind at 1. rewrite <- F, E. unfold bind at 1. unfold retrieve, bind at 1, get. rewrite Es.
  pose proof (self_diverges n 0 s) as D. cbn [repeat] in D. rewrite app_nil_r in D. rewrite D. reflexivity.
Qed.

(** ** The prefix in documents and results *)
Lemma encoded t : encode_html t false false = entities false t.
Proof. apply entities_encode. Qed.
Lemma prepared_apart T text : t_uid T <> [] ->
  set_apart (t_uid T) (tidy (if t_restricted T then entities false text else text)) -> token_free T (prepare T text).
Proof.
  intros Hu H. unfold prepare. rewrite normalize_tidy, encoded. intros a b E. pose proof (removed _ _ Hu H) as R. rewrite E in R. rewrite contains_mid in R. discriminate.
Qed.
Lemma no_leak W T fuel bs : ready T -> (1 < fuel)%nat -> (forall b, In b bs -> proper T b) ->
  exists h s, parse W T fuel [] (sections (map source bs)) = Ret h s /\ token_free T h.
Proof.
  intros Hr Hf Hb. destruct (documents W T fuel bs Hr Hf Hb) as (s & E). eexists _, s. split; [exact E|]. destruct Hr as (Hu & _ & _).
  intros a b F. assert (contains (t_uid T) (sections (map (block_html (line_break T)) (seen_blocks T bs))) = false) as N; [|rewrite F, contains_mid in N; discriminate].
  assert (forall b, In b (seen_blocks T bs) -> plain b /\ contains (t_uid T) (content b) = false) as P.
  { assert (fine T bs) as Hfi. { intros x Hx. destruct (Hb x Hx) as (H1 & H2 & H3). split; auto. split; [apply token_free_iff; auto|exact H3]. }
    intros x Hx. assert (In x (adapted T bs)) as Hx' by exact Hx. pose proof (adapted_fine T Hu bs Hfi x Hx') as (P1 & P2 & _). auto. }
  apply sections_uid; auto. intros x Hx. apply in_map_iff in Hx. destruct Hx as (y & <- & Hy). destruct (P y Hy) as [P1 P2]. apply shown_uid; auto.
  right. unfold line_break. destruct (t_html T); eexists; (split; [|reflexivity]); [right|left]; reflexivity.
Qed.
Lemma marks_only uid c ps : In c uid -> (forall t, In (Lit t) ps -> ~ In c t) -> only_marks uid ps.
Proof.
  intros Hc H a ls b x y E F. assert (In c (List.concat ls)) as I by (rewrite F; apply in_or_app; right; apply in_or_app; auto).
  apply in_concat in I. destruct I as (t & Ht & I). apply (H t); auto. rewrite E. apply in_or_app. right. apply in_or_app. left. apply in_map. auto.
Qed.
(** A decidable form for examples: checks every position. *)
Fixpoint apart_from (uid : str) (last : option N) (s : str) : bool :=
  match s with
  | [] => true
  | c :: r => (negb (starts_with uid s) || match last with None => true | Some x => negb (existsb (N.eqb x) uid) end) && apart_from uid (Some c) r
  end.
Lemma apart_from_ok uid s : uid <> [] -> forall last pre, apart_from uid last s = true -> (last = None -> pre = []) -> (forall x, last = Some x -> exists p, pre = p ++ [x]) ->
  forall a b, s = a ++ uid ++ b -> pre ++ a = [] \/ exists a' c, pre ++ a = a' ++ [c] /\ ~ In c uid.
Proof.
  intros Hu. induction s as [|c s IH]; intros last pre H H1 H2 a b E.
  - destruct a; [|discriminate]. destruct uid; [congruence|discriminate].
  - cbn [apart_from] in H. apply andb_true_iff in H. destruct H as [H3 H4]. destruct a as [|a0 a].
    + rewrite app_nil_r. cbn [app] in E. rewrite E, starts_self in H3. cbn [negb orb] in H3. destruct last as [x|]; [|left; auto].
      right. destruct (H2 x eq_refl) as (p & ->). exists p, x. split; auto. intros F. apply negb_true_iff in H3.
      assert (existsb (N.eqb x) uid = true) by (apply existsb_exists; exists x; split; auto; apply N.eqb_refl). congruence.
    + cbn [app] in E. inversion E; subst. destruct (IH (Some a0) (pre ++ [a0]) H4) with (a := a) (b := b) as [F|F]; auto; [discriminate| | |].
      * intros x Hx. inversion Hx; subst. eauto.
      * rewrite <- app_assoc in F. auto.
      * rewrite <- app_assoc in F. auto.
Qed.
Lemma set_apart_iff uid s : uid <> [] -> apart_from uid None s = true -> set_apart uid s.
Proof. intros Hu H a b E. apply (apart_from_ok uid s Hu None []) with (b := b); auto. discriminate. Qed.
Lemma contains_free T t : contains (t_uid T) t = false -> token_free T t.
Proof. intros H a b E. rewrite E, contains_mid in H. discriminate. Qed.

(** What is removed is the prefix and nothing else. *)
Lemma cut_out uid : uid <> [] -> forall n s, (List.length s <= n)%nat ->
  exists first rest, s = first ++ List.concat (map (fun p => uid ++ p) rest) /\ replace_str s uid [] = first ++ List.concat rest /\
  forall p, In p (first :: rest) -> contains uid p = false.
Proof.
  intros Hu. induction n as [|n IH]; intros s L.
  - destruct s; [|cbn in L; lia]. exists [], []. destruct uid; [congruence|]. split; [reflexivity|]. split; [reflexivity|]. intros p [<-|[]]. reflexivity.
  - destruct (contains uid s) eqn:C.
    + destruct (first_occurrence uid Hu s C) as (x & y & -> & Cx & F). destruct (IH y) as (first & rest & E1 & E2 & E3).
      { rewrite !app_length in L. destruct uid; [congruence|]. cbn [List.length] in *. lia. }
      exists x, (first :: rest). split; [cbn [map List.concat]; rewrite E1 at 1; rewrite <- app_assoc; reflexivity|]. split.
      * rewrite replace_skip by auto. rewrite replace_hit by auto. cbn [app List.concat]. rewrite E2. reflexivity.
      * intros p [<-|H]; auto.
    + exists s, []. cbn [map List.concat]. rewrite !app_nil_r. split; [reflexivity|]. split; [apply replace_absent; auto|]. intros p [<-|[]]. exact C.
Qed.
Lemma prepared_pieces T text : t_uid T <> [] ->
  exists first rest, tidy (if t_restricted T then entities false text else text) = first ++ List.concat (map (fun p => t_uid T ++ p) rest) /\
  prepare T text = first ++ List.concat rest /\ forall p, In p (first :: rest) -> token_free T p.
Proof.
  intros Hu. unfold prepare. rewrite normalize_tidy, encoded. destruct (cut_out (t_uid T) Hu _ (tidy (if t_restricted T then entities false text else text)) (le_n _)) as (first & rest & E1 & E2 & E3).
  exists first, rest. split; [exact E1|]. split; [exact E2|]. intros p Hp a b ->. specialize (E3 _ Hp). rewrite contains_mid in E3. discriminate.
Qed.
