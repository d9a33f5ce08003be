(** Blocks of a mixed document parsed on their own. *)
From Coq Require Import ZArith.
From Verif Require Import Str Unicode Regex RegexAuto Lib ModelBase ModelParser SpecPlain ProofPlain SpecNewlines SpecDoc ProofDocument SpecLists ProofLists SpecTables SpecDefs SpecSigned ProofSignedPage ProofSignedTop SpecMixed ProofMixed.
#[local] Arguments u : simpl never.

(** ** Numbering from within *)
Definition alike (S : str -> Prop) (c d : counters) : Prop := forall q, S q -> c q = d q.
Definition same_result {A} (S : str -> Prop) (x y : option (A * counters)) : Prop :=
  match x, y with None, None => True | Some (a, c), Some (b, d) => a = b /\ alike S c d | _, _ => False end.
Definition known (S : str -> Prop) (k : kind) (p : str) : Prop := match k with Bullets => True | Numbers _ => S p end.
Lemma counted_alike S p v c d : alike S c d -> alike (fun q => S q \/ q = p) (counted p v c) (counted p v d).
Proof. intros H q Hq. unfold counted. destruct (seqb q p) eqn:E; [reflexivity|]. destruct Hq as [Hq| ->]; [apply H; exact Hq|]. rewrite seqb_refl in E. discriminate. Qed.
Lemma alike_sub (S S' : str -> Prop) c d : (forall q, S q -> S' q) -> alike S' c d -> alike S c d.
Proof. intros H A q Hq. apply A, H, Hq. Qed.
Lemma take_alike S k p c d : known S k p -> alike S c d ->
  match take_number k p c, take_number k p d with None, None => True | Some c', Some d' => alike S c' d' | _, _ => False end.
Proof.
  intros Hk H. destruct k as [|st]; cbn [take_number known] in *; [exact H|]. rewrite (H p Hk). destruct (d p =? _); [exact I|].
  eapply alike_sub; [|apply counted_alike; exact H]. intros q Hq. left. exact Hq.
Qed.
Lemma opening_alike S k p c d : continues_no k -> alike S c d ->
  fst (opening k p c) = fst (opening k p d) /\ exists S' : str -> Prop, (forall q, S q -> S' q) /\ known S' k p /\ alike S' (snd (opening k p c)) (snd (opening k p d)).
Proof.
  intros Hk H. destruct k as [|[|n|]]; cbn [opening fst snd continues_no] in *; [| | |contradiction]; (split; [reflexivity|]).
  - exists S. split; [auto|]. split; [exact I|exact H].
  - exists (fun q => S q \/ q = p). split; [auto|]. split; [right; reflexivity|]. apply counted_alike. exact H.
  - exists (fun q => S q \/ q = p). split; [auto|]. split; [right; reflexivity|]. apply counted_alike. exact H.
Qed.
Lemma run_alike (f : item -> counters -> option (str * counters)) S l : (forall i, In i l -> forall c d, alike S c d -> same_result S (f i c) (f i d)) ->
  forall c d, alike S c d -> same_result S (run_items f l c) (run_items f l d).
Proof.
  induction l as [|i l IH]; intros H c d A; cbn [run_items]; [split; [reflexivity|exact A]|]. pose proof (H i (or_introl eq_refl) c d A) as R.
  destruct (f i c) as [[x c1]|], (f i d) as [[y d1]|]; cbn [same_result] in R; try contradiction; [|exact I]. destruct R as [-> A1].
  specialize (IH (fun j Hj => H j (or_intror Hj)) c1 d1 A1). destruct (run_items f l c1) as [[xs c2]|], (run_items f l d1) as [[ys d2]|]; cbn [same_result] in *; try contradiction; [|exact I].
  destruct IH as [-> A2]. split; [reflexivity|exact A2].
Qed.
Lemma same_sub {A} (S S' : str -> Prop) (x y : option (A * counters)) : (forall q, S q -> S' q) -> same_result S' x y -> same_result S x y.
Proof. intros H R. destruct x as [[a c]|], y as [[b d]|]; cbn [same_result] in *; auto. destruct R as [-> R]. split; [reflexivity|]. eapply alike_sub; eauto. Qed.
Lemma item_alike i : (forall k', In k' (kinds i) -> continues_no k') -> forall n k p S c d, known S k p -> alike S c d -> same_result S (item_html n k p i c) (item_html n k p i d).
Proof.
  induction i as [t k' sub IH] using item_induction. intros Hk n k p S c d Hp A. cbn [item_html]. pose proof (take_alike S k p c d Hp A) as Tk.
  destruct (take_number k p c) as [c1|], (take_number k p d) as [d1|]; try contradiction; [|exact I]. destruct sub as [|j sub]; [split; [reflexivity|exact Tk]|].
  destruct (opening_alike S k' (p ++ [mark_of k']) c1 d1 (Hk k' (or_introl eq_refl)) Tk) as (E & S' & H1 & H2 & H3).
  destruct (opening k' (p ++ [mark_of k']) c1) as [tag c2], (opening k' (p ++ [mark_of k']) d1) as [tag' d2]. cbn [fst snd] in E, H3. subst tag'.
  assert (R : same_result S' (run_items (item_html (Datatypes.S n) k' (p ++ [mark_of k'])) (j :: sub) c2) (run_items (item_html (Datatypes.S n) k' (p ++ [mark_of k'])) (j :: sub) d2)).
  { apply run_alike; [|exact H3]. intros i Hi c0 d0 A0. rewrite Forall_forall in IH. apply (IH i Hi); auto. intros k0 H0. apply Hk. cbn [kinds]. right. apply in_flat_map. eauto. }
  destruct (run_items _ (j :: sub) c2) as [[xs c3]|], (run_items _ (j :: sub) d2) as [[ys d3]|]; cbn [same_result] in R; try contradiction; [|exact I].
  destruct R as [-> R]. split; [reflexivity|]. eapply alike_sub; eauto.
Qed.
Lemma list_alike k items c d : (forall k', In k' (k :: flat_map kinds items) -> continues_no k') ->
  match list_html k items c, list_html k items d with None, None => True | Some (x, _), Some (y, _) => x = y | _, _ => False end.
Proof.
  intros Hk. unfold list_html. destruct (opening_alike (fun _ => False) k [mark_of k] c d (Hk k (or_introl eq_refl)) (fun q F => False_ind _ F)) as (E & S' & H1 & H2 & H3).
  destruct (opening k [mark_of k] c) as [tag c2], (opening k [mark_of k] d) as [tag' d2]. cbn [fst snd] in E, H3. subst tag'.
  assert (R : same_result S' (run_items (item_html 0 k [mark_of k]) items c2) (run_items (item_html 0 k [mark_of k]) items d2)).
  { apply run_alike; [|exact H3]. intros i Hi c0 d0 A0. apply item_alike; auto. intros k0 H0. apply Hk. right. apply in_flat_map. eauto. }
  destruct (run_items _ items c2) as [[xs c3]|], (run_items _ items d2) as [[ys d3]|]; cbn [same_result] in R; try contradiction; [|exact I]. destruct R as [-> _]. reflexivity.
Qed.
Lemma html_alike r br m c d : self_numbered m ->
  match mixed_html r br m c, mixed_html r br m d with None, None => True | Some (x, _), Some (y, _) => x = y | _, _ => False end.
Proof.
  intros H. destruct m as [p|k items|t|l]; cbn [mixed_html self_numbered] in *; try reflexivity. pose proof (list_alike k items c d H) as L.
  destruct (list_html k items c) as [[x c']|], (list_html k items d) as [[y d']|]; try contradiction; [rewrite L; reflexivity|exact I].
Qed.
(** ** Documents *)
Definition alone (r : bool) (br : str) (m : mixed) : option (list str) := option_map fst (mixed_html r br m from_one).
Lemma page_alone r br ms : Forall self_numbered ms -> forall c,
  mixed_page r br ms c = fold_right (fun m o => match alone r br m, o with Some hs, Some l => Some (hs ++ l) | _, _ => None end) (Some []) ms.
Proof.
  intros H. induction H as [|m ms Hm H IH]; intros c; [reflexivity|]. cbn [mixed_page fold_right]. unfold alone at 1. pose proof (html_alike r br m c from_one Hm) as E.
  destruct (mixed_html r br m c) as [[x c']|], (mixed_html r br m from_one) as [[y d']|]; try contradiction; [|reflexivity]. cbn [option_map fst]. subst y. rewrite (IH c'). reflexivity.
Qed.
Lemma seen_numbered T m : self_numbered m -> self_numbered (seen_mixed T m).
Proof. destruct m; auto. Qed.
Lemma page_one r br m : mixed_page r br [m] from_one = option_map (fun hs => hs ++ []) (alone r br m).
Proof. unfold alone. cbn [mixed_page]. destruct (mixed_html r br m from_one) as [[x c]|]; reflexivity. Qed.
(** At most one result, which is not empty. *)
Lemma alone_shape T m hs : ready T -> t_lite T = false -> mixed_ok T m -> alone (t_restricted T) (line_break T) (seen_mixed T m) = Some hs -> hs = [] \/ exists h, hs = [h] /\ shown h = true.
Proof.
  intros Hr Hl Hm E. pose proof (seen_fits T (proj1 Hr) m Hm) as Hf. unfold alone in E. destruct (mixed_html (t_restricted T) (line_break T) (seen_mixed T m) from_one) as [[x c]|] eqn:Ex; [|discriminate].
  cbn [option_map fst] in E. assert (x = hs) as -> by congruence. rewrite <- (final_break T) in Ex.
  assert (Q : exists st c', mixed_stage T 0 (seen_mixed T m) from_one = Some (st, c')).
  { destruct (mixed_stage T 0 (seen_mixed T m) from_one) as [[st c']|] eqn:Es; [eauto|]. apply stage_none in Es. congruence. }
  destruct Q as (st & c' & Q). destruct (mixed_results T (proj1 Hr) (seen_mixed T m) 0 from_one st c' Hf Q) as (a1 & a2 & _ & A2 & _ & _ & _ & A6).
  assert (a2 = hs) as -> by congruence.
  assert (L : hs = [] \/ exists h, hs = [h]).
  { clear - Ex. destruct (seen_mixed T m) as [p|k items|t|l]; cbn [mixed_html] in Ex.
    - destruct p; cbn [SpecSigned.part_html] in Ex; assert (E := f_equal (fun o => match o with Some (a, _) => a | None => [] end) Ex); cbv beta iota in E; subst hs; eauto.
    - destruct (list_html k items from_one) as [[y d]|]; [|discriminate]. assert (hs = [y]) by congruence. eauto.
    - assert (hs = [table_html t]) by congruence. eauto.
    - assert (hs = [defs_html l]) by congruence. eauto. }
  destruct L as [->|(h & ->)]; [left; reflexivity|right]. exists h. split; [reflexivity|]. destruct (A6 h (or_introl eq_refl)) as (v & d & -> & _). destruct v; reflexivity.
Qed.
Lemma blocks_apart W T fuel ms : ready T -> t_lite T = false -> (1 < fuel)%nat -> Forall (mixed_ok T) ms -> apart ms -> Forall self_numbered ms ->
  (forall hs, Forall2 (fun m h => exists s, parse W T fuel [] (mixed_source [m]) = Ret h s) ms hs -> exists s, parse W T fuel [] (mixed_source ms) = Ret (sections (filter shown hs)) s) /\
  (forall m e, In m ms -> parse W T fuel [] (mixed_source [m]) = Panic e -> parse W T fuel [] (mixed_source ms) = Panic e).
Proof.
  intros Hr Hl Hf Hm Ha Hn. pose proof (mixed_documents W T fuel ms Hr Hl Hf Hm Ha) as D.
  assert (One : forall m, In m ms -> match alone (t_restricted T) (line_break T) (seen_mixed T m) with Some hs => exists s, parse W T fuel [] (mixed_source [m]) = Ret (sections hs) s | None => parse W T fuel [] (mixed_source [m]) = Panic Overflow end).
  { intros m Hi. rewrite Forall_forall in Hm. pose proof (mixed_documents W T fuel [m] Hr Hl Hf (Forall_cons m (Hm m Hi) (Forall_nil _)) I) as D1. cbn [map] in D1. rewrite page_one in D1.
    destruct (alone _ _ _) as [hs|]; cbn [option_map] in D1; [rewrite app_nil_r in D1|]; exact D1. }
  rewrite page_alone in D by (apply Forall_forall; intros x Hx; apply in_map_iff in Hx as (y & <- & Hy); apply seen_numbered; rewrite Forall_forall in Hn; auto).
  split.
  - intros hs F. assert (G : fold_right (fun m o => match alone (t_restricted T) (line_break T) m, o with Some hs, Some l => Some (hs ++ l) | _, _ => None end) (Some []) (map (seen_mixed T) ms) = Some (filter shown hs)).
    { clear D Ha Hn. revert hs F. induction ms as [|m ms IH]; intros hs F; inversion F as [|? h ? hs' F1 F2]; subst; [reflexivity|]. inversion Hm; subst. cbn [map fold_right filter].
      rewrite (IH ltac:(assumption) ltac:(intros; apply One; right; assumption) hs' F2). pose proof (One m (or_introl eq_refl)) as O1. destruct F1 as (s & F1). rewrite F1 in O1.
      destruct (alone (t_restricted T) (line_break T) (seen_mixed T m)) as [x|] eqn:E; [|discriminate]. destruct O1 as (s' & O1). assert (h = sections x) as -> by congruence.
      destruct (alone_shape T m x Hr Hl ltac:(assumption) E) as [->|(y & -> & Hy)]; [reflexivity|]. cbn [sections app]. rewrite Hy. reflexivity. }
    rewrite G in D. exact D.
  - intros m e Hi Ep. assert (G : fold_right (fun m o => match alone (t_restricted T) (line_break T) m, o with Some hs, Some l => Some (hs ++ l) | _, _ => None end) (Some []) (map (seen_mixed T) ms) = None /\ e = Overflow).
    { pose proof (One m Hi) as O1. rewrite Ep in O1. destruct (alone _ _ (seen_mixed T m)) as [x|] eqn:E; [destruct O1; discriminate|]. split; [|congruence].
      clear - Hi E. induction ms as [|m' ms IH]; [destruct Hi|]. cbn [map fold_right]. destruct Hi as [->|Hi]; [rewrite E; reflexivity|]. rewrite (IH Hi). destruct (alone _ _ (seen_mixed T m')); reflexivity. }
    destruct G as [G ->]. rewrite G in D. exact D.
Qed.
