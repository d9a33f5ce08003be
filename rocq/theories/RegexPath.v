(** Where a pattern can start to match in the texts of an automaton. *)
From Verif Require Import Str Unicode Regex RegexTheory RegexAuto ProofRegex ProofNewlines ProofTags.

Section Path.
Variable A : auto.
(** A run that reads [w]; no character is read in a state of [H]. *)
Inductive Path (H : list nat) : nat -> str -> nat -> Prop :=
| PathNil q : Path H q [] q
| PathCons q l q' c w q2 : mem q H = false -> In (q, l, q') (au_trans A) -> in_cls l c = true -> Path H q' w q2 -> Path H q (c :: w) q2.
Lemma path_app H q w q' v q2 : Path H q w q' -> Path H q' v q2 -> Path H q (w ++ v) q2.
Proof. induction 1 as [|q l q1 c w q' H0 H1 H2 H3 IH]; intros; [auto|]. cbn [app]. econstructor; eauto. Qed.
Lemma path_suf H q w q' v : Path H q w q' -> Suf A q' v -> Suf A q (w ++ v).
Proof. induction 1 as [|q l q1 c w q' H0 H1 H2 H3 IH]; intros; [auto|]. cbn [app]. econstructor; eauto. Qed.
Lemma path_pre H q w q' : Path H q w q' -> forall b, Pre A q b -> Pre A q' (rev w ++ b).
Proof.
  induction 1 as [|q l q1 c w q' H0 H1 H2 H3 IH]; intros b Hp; [auto|]. cbn [rev]. rewrite <- app_assoc. apply IH. econstructor; eauto.
Qed.
Lemma path_any H q w q' : Path H q w q' -> Path [] q w q'.
Proof. induction 1 as [|q l q1 c w q' H0 H1 H2 H3 IH]; [constructor|]. econstructor; eauto. Qed.
(** No match starts in another state. *)
Definition clear (H : list nat) (r : re) : bool := is_nil (post A r (filter (fun q => negb (mem q H)) (all_states A))).
Lemma clear_ok H r q b v : clear H r = true -> mem q H = false -> Pre A q b -> Suf A q v -> match_at r b v = None.
Proof.
  intros Hc Hq Hp Hs. apply match_at_none_of. intros [s' Hm].
  destruct (post_sound A _ _ _ Hm (filter (fun q => negb (mem q H)) (all_states A)) q) as (q' & Hq' & _).
  - apply filter_In. split; [eapply pre_all; eauto|rewrite Hq; reflexivity].
  - split; auto.
  - unfold clear in Hc. destruct (post A r _); [destruct Hq'|discriminate].
Qed.
(** The text after the replacement of all matches. *)
Definition out (r : re) (f : hit -> str) (b v : str) (last : bool) : str :=
  flat_map (fun g => match g with Lit c => [c] | Hit h => f h end) (scan r b v O last).
Lemma out_path H r f q w q' : clear H r = true -> Path H q w q' -> forall b v last, Pre A q b -> Suf A q' v ->
  exists last', out r f b (w ++ v) last = w ++ out r f (rev w ++ b) v last'.
Proof.
  intros Hc Hw. induction Hw as [q|q l q1 c w q' H0 H1 H2 H3 IH]; intros b v last Hp Hs; [exists last; reflexivity|].
  destruct (IH (c :: b) v false) as (last' & E); [econstructor; eauto|auto|]. exists last'. unfold out in *. cbn [app].
  rewrite scan_cons. rewrite (clear_ok H r q b (c :: w ++ v) Hc H0 Hp).
  - cbn [flat_map app]. rewrite E. cbn [rev]. rewrite <- app_assoc. reflexivity.
  - econstructor; eauto. eapply path_suf; eauto.
Qed.
Lemma out_end H r f q b last : clear H r = true -> mem q H = false -> Pre A q b -> Suf A q [] -> out r f b [] last = [].
Proof.
  intros Hc Hq Hp Hs. unfold out. rewrite scan_nil. destruct last; [reflexivity|]. rewrite (clear_ok H r q b [] Hc Hq Hp Hs). reflexivity.
Qed.
Lemma out_hit r f b w v s last : w <> [] -> match_at r b (w ++ v) = Some s -> m_after s = v ->
  out r f b (w ++ v) last = f (mk_hit w (m_caps s)) ++ out r f (rev w ++ b) v true.
Proof.
  intros Hw E Ea. unfold out. rewrite (scan_take r b w v s last Hw E Ea). cbn [flat_map]. f_equal. f_equal. unfold mk_hit_of. rewrite Ea, cap_str_app. reflexivity.
Qed.
End Path.
