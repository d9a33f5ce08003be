(** Concrete histories, and the state properties for a fresh parser. *)
From Coq Require Import ZArith.
From Verif Require Import Str Unicode Regex RegexSnips ModelBase ModelHtml ModelInline ModelParser Samples SpecParse SpecState
  Logic ProofWalk ProofState ProofMemory ProofCache ProofSpan.

Lemma history_refuted : exists l T c, history W0 60 (T0, []) l = Some (T, c) /\
  seen (parse W0 T 60 c (u "*a*")) <> seen (parse W0 T 60 [] (u "*a*")).
Proof.
  exists [Parse (u "*a*"); Configure (SetUid (u "def"))].
  eexists; eexists. split; [vm_compute; reflexivity|]. vm_compute. discriminate.
Qed.
Lemma history_example : let l := [Configure (SetUid (u "x")); Parse (u """a"":http://b"); Configure (SetRestricted true); Parse (u "_a_")] in
  uid_first l /\ exists T c, history W0 60 (T0, []) l = Some (T, c) /\ c <> [] /\ t_restricted T = true.
Proof.
  split.
  - intros l1 b l2 text H Hin. destruct l1 as [|e1 [|e2 [|e3 [|e4 l1]]]]; cbn in H; try discriminate; try contradiction.
    destruct l1; discriminate.
  - eexists; eexists. split; [vm_compute; reflexivity|]. split; [discriminate|reflexivity].
Qed.
Lemma parse_footnotes_ok W T fuel text html s : parse W T fuel [] text = Ret html s -> footnotes_ok T s.
Proof. exact (@parse_footnotes (own T) W T fuel [] text html s eq_refl cache_ok_nil). Qed.
Lemma graf_footnotes_kept W T fuel n text s t s' : footnotes_ok T s -> ps_borrowed s = false -> @cache_ok (own T) (ps_cache s) ->
  graf_n W T fuel n text s = Ret t s' -> footnotes_ok T s' /\ exists l, ps_footnotes s' = ps_footnotes s ++ l.
Proof. intros H1 H2 H3 H4. exact (proj2 (@graf_footnotes (own T) W T fuel n text s t s' eq_refl H2 H3 H4) H1). Qed.
Lemma graf_keeps (K : uids) W T R (HS : graf_steps W T R) fuel n text s t s' : known (t_uid T) -> ps_borrowed s = false -> cache_ok (ps_cache s) ->
  graf_n W T fuel n text s = Ret t s' -> R s s'.
Proof.
  intros HK Hb Hc H.
  pose proof (w_graf W T fuel _ _ (keeps_ops W T _ HS true) (keeps_ops W T _ HS false) (keeps_cache W T _ HS HK) HK n text s Hb Hc) as P.
  rewrite H in P. apply P.
Qed.
Lemma graf_notes_kept W T fuel n text order s t s' : notes_ok order s -> ps_borrowed s = false -> @cache_ok (own T) (ps_cache s) ->
  graf_n W T fuel n text s = Ret t s' -> ps_link_index s <= ps_link_index s' /\ exists more, notes_ok (order ++ more) s'.
Proof.
  intros H1 H2 H3 H4. split.
  - apply (@graf_footnotes (own T) W T fuel n text s t s' eq_refl H2 H3 H4).
  - exact (graf_keeps (own T) W T _ (steps_notes W T) fuel n text s t s' eq_refl H2 H3 H4 order H1).
Qed.
Lemma block_notes_ok W T fuel n text t s : block W T (graf_n W T fuel n) text (new_state []) = Ret t s -> exists order, notes_ok order s.
Proof. exact (@block_notes (own T) W T fuel n [] text t s eq_refl cache_ok_nil). Qed.
Lemma parse_numbers W T fuel text html s : parse W T fuel [] text = Ret html s -> exists ns, numbered T ns s.
Proof. exact (@parse_numbered (own T) W T fuel [] text html s eq_refl cache_ok_nil). Qed.
Lemma graf_numbers_kept W T fuel n text ns s t s' : numbered T ns s -> ps_borrowed s = false -> @cache_ok (own T) (ps_cache s) ->
  graf_n W T fuel n text s = Ret t s' ->
  (exists ns', numbered T ns' s') /\ (exists l, ps_shelf s' = ps_shelf s ++ l) /\ (exists l, ps_ref_cache s' = ps_ref_cache s ++ l).
Proof.
  intros H1 H2 H3 H4. exact (graf_keeps (own T) W T _ (steps_numbers W T) fuel n text s t s' eq_refl H2 H3 H4 (ex_intro _ ns H1)).
Qed.
Lemma parse_requests W T fuel text html s : parse W T fuel [] text = Ret html s ->
  Forall (fun url => t_get_sizes T = true /\ requestable W T url) (ps_http s).
Proof. exact (@parse_asks (own T) W T fuel [] text html s eq_refl cache_ok_nil). Qed.
Lemma parse_no_request W T fuel text html s : t_get_sizes T = false -> parse W T fuel [] text = Ret html s -> ps_http s = [].
Proof.
  intros H1 H2. apply parse_requests in H2. destruct (ps_http s) as [|x l]; [reflexivity|]. inversion H2 as [|? ? [H3 _] _]. congruence.
Qed.
Lemma depth_limit cs id : t_max_span_depth (calls cs (default_textile id)) = 5.
Proof.
  unfold calls. assert (forall T, t_max_span_depth T = 5 -> t_max_span_depth (fold_left (fun t c => call c t) cs T) = 5) as P; [|apply P; reflexivity].
  induction cs as [|c cs IH]; intros T H; cbn [fold_left]; [auto|]. apply IH. destruct c; exact H.
Qed.
