(** Break tags in blocks are spelled in one way. *)
From Verif Require Import Str Unicode Regex RegexParse RegexSnips RegexTheory Lib ModelBase ModelInline ModelParser SpecRegex ProofRegex SpecParse ProofParse Logic ProofNotes
  SpecSpelling.
#[local] Arguments u : simpl never.

Lemma spelling_matches tag before after : break_spelling tag -> matches_here (rx_re BR_TAG_RE) before (tag ++ after).
Proof.
  intros (b & r & ws & slash & -> & Hb & Hr & Hw & Hs). unfold matches_here, BR_TAG_RE. cbn [rx_re app].
  eexists. eapply MSeq; [eapply MCls; [reflexivity|reflexivity]|]. unfold step at 1. cbn [m_before m_caps].
  eapply MSeq; [eapply MCls; [reflexivity|destruct Hb as [->| ->]; reflexivity]|]. unfold step at 1. cbn [m_before m_caps].
  eapply MSeq; [eapply MCls; [reflexivity|destruct Hr as [->| ->]; reflexivity]|]. unfold step at 1. cbn [m_before m_caps].
  eapply MSeq with (s1 := mk_mst (rev ws ++ r :: b :: 60 :: before) (slash ++ [62] ++ after) []).
  { rewrite <- !app_assoc. generalize (r :: b :: 60 :: before). induction Hw as [|c ws Hc Hw IH]; intros l; cbn [app rev]; [apply MStar0|].
    eapply MStarS; [eapply MCls; [reflexivity|]|].
    - unfold in_cls. cbn [c_neg c_items existsb in_item has_prop]. apply is_ws_iff in Hc. rewrite Hc. reflexivity.
    - unfold step. cbn [m_before m_caps]. rewrite <- app_assoc. cbn [app]. apply IH. }
  eapply MSeq with (s1 := mk_mst (rev slash ++ rev ws ++ r :: b :: 60 :: before) ([62] ++ after) []); [|eapply MCls; [reflexivity|reflexivity]].
  destruct Hs as [-> | ->]; [apply MAltR; apply MEps|apply MAltL]. refine (MCls _ (mk_mst _ _ _) 47 _ eq_refl _). reflexivity.
Qed.
Lemma br_tag_starts before rest s : match_at (rx_re BR_TAG_RE) before rest = Some s -> exists r, rest = 60 :: r.
Proof.
  unfold match_at, BR_TAG_RE. cbn [rx_re]. intros H. destruct rest as [|c rest].
  - rewrite m_seq, m_cls_nil in H. discriminate.
  - rewrite m_seq, m_cls in H. unfold in_cls in H. cbn [c_neg c_items existsb in_item] in H. destruct (N.eq_dec c 60) as [->|Hn]; eauto.
    replace ((60 <=? c) && (c <=? 60)) with false in H; [discriminate|]. symmetry. apply andb_false_iff. rewrite !N.leb_gt. lia.
Qed.
(** The shape of a tag: it starts with its only [<] and ends with its only [>]. *)
Lemma spelling_shape tag : break_spelling tag -> exists t, tag = 60 :: t ++ [62] /\ ~ In 60 t /\ ~ In 62 t.
Proof.
  intros (b & r & ws & slash & -> & Hb & Hr & Hw & Hs). exists (b :: r :: ws ++ slash). split; [cbn [app]; rewrite <- app_assoc; reflexivity|].
  assert (forall c, In c (b :: r :: ws ++ slash) -> c <> 60 /\ c <> 62) as G.
  { intros c [<-|[<-|H]]; [destruct Hb; lia|destruct Hr; lia|]. apply in_app_iff in H. destruct H as [H|H].
    - rewrite Forall_forall in Hw. specialize (Hw c H). unfold white_space in Hw. lia.
    - destruct Hs as [->| ->]; [destruct H|]. destruct H as [<-|[]]. lia. }
  split; intros F; apply G in F; lia.
Qed.
Lemma one_gt : forall t1 t2 x y, ~ In 62 t1 -> ~ In 62 t2 -> t1 ++ 62 :: x = t2 ++ 62 :: y -> t1 = t2 /\ x = y.
Proof.
  induction t1 as [|c t1 IH]; intros [|d t2] x y H1 H2 E; cbn [app] in E; inversion E; subst.
  - auto.
  - destruct H2. left. auto.
  - destruct H1. left. auto.
  - destruct (IH t2 x y) as [-> ->]; auto; intros F; [apply H1|apply H2]; right; auto.
Qed.
Lemma br_spelling T : break_spelling (br_tag T).
Proof.
  unfold br_tag, break_spelling. destruct (t_html T).
  - exists 98, 114, [32], [47]. split; [reflexivity|]. repeat split; auto. constructor; [unfold white_space; lia|constructor].
  - exists 98, 114, [], []. split; [reflexivity|]. repeat split; auto.
Qed.
Lemma cut_spelled br adj b text lits hits : break_spelling br -> cut (rx_re BR_TAG_RE) adj b text lits hits ->
  breaks_spelled br (interleave lits (map (fun _ => br) hits)).
Proof.
  intros Hbr Hc. induction Hc as [adj b lit Hg Hend|adj b lit rest s lits hits Hg Hm Hadj Hc IH]; cbn [interleave map].
  - intros w tag v E Ht. exfalso. pose proof (spelling_shape tag Ht) as (t & -> & _).
    apply (gap_none (rx_re BR_TAG_RE) _ _ _ _ w 60 ((t ++ [62]) ++ v) eq_refl Hg E). rewrite app_nil_r. exact (spelling_matches _ _ _ Ht).
  - set (R := interleave lits (map (fun _ => br) hits)) in *. intros w tag v E Ht. apply br_tag_starts in Hm as [rr ->].
    pose proof (spelling_shape tag Ht) as (t & Et & Nt & Gt). pose proof (spelling_shape br Hbr) as (t' & Et' & Nt' & Gt').
    apply app_eq_app in E as [l [[H1 H2]|[H1 H2]]].
    + destruct l as [|x l].
      * cbn [app] in H2. rewrite Et, Et' in *. cbn [app] in H2. inversion H2 as [E]. rewrite <- !app_assoc in E. cbn [app] in E. destruct (one_gt t t' _ _ Gt Gt' E) as [-> _]. reflexivity.
      * exfalso. rewrite Et in H2. cbn [app] in H2. inversion H2 as [[Hx E2]]. subst x. rewrite Et' in E2. cbn [app] in E2.
        assert (~ In 60 (t ++ [62])) as Nt2 by (intros F; apply in_app_iff in F as [F|[F|[]]]; auto; lia).
        apply no_lt_prefix in E2 as (l3 & -> & ->); auto.
        apply (gap_none (rx_re BR_TAG_RE) _ _ _ _ w 60 ((t ++ [62]) ++ l3) eq_refl Hg H1). rewrite <- !app_assoc.
        change (60 :: t ++ [62] ++ l3 ++ 60 :: rr) with ((60 :: t ++ [62] ++ l3 ++ 60 :: rr)). rewrite Et in Ht. pose proof (spelling_matches _ (rev w ++ b) (l3 ++ 60 :: rr) Ht) as M.
        cbn [app] in M. rewrite <- app_assoc in M. exact M.
    + destruct l as [|x l].
      * cbn [app] in H2. rewrite Et, Et' in *. cbn [app] in H2. inversion H2 as [E]. rewrite <- !app_assoc in E. cbn [app] in E. destruct (one_gt t' t _ _ Gt' Gt E) as [-> _]. reflexivity.
      * rewrite Et' in H2. cbn [app] in H2. inversion H2 as [[Hx E2]]. subst x. rewrite Et in E2. cbn [app] in E2.
        assert (~ In 60 (t' ++ [62])) as Nt2 by (intros F; apply in_app_iff in F as [F|[F|[]]]; auto; lia).
        apply no_lt_prefix in E2 as (l3 & -> & E3); auto. apply (IH l3 tag v); auto. rewrite Et. exact E3.
Qed.
Lemma spelled_all T t : breaks_spelled (br_tag T) (replace_all (rx_re BR_TAG_RE) (fun _ => br_tag T) t).
Proof.
  destruct (substitution (rx_re BR_TAG_RE) (fun _ => br_tag T) t eq_refl) as (lits & hits & H1 & H2 & ->). eapply cut_spelled; [apply br_spelling|exact H1].
Qed.
(** What a block adds to the output. *)
Lemma block_spelled W T g a text s a' s' : block_step W T g a text s = Ret a' s' ->
  exists before body, (before = bl_out a \/ before = push_last (bl_closing a) (bl_out a)) /\ breaks_spelled (br_tag T) body /\
  ((bl_out a' = before /\ (is_empty (trim text) = true \/ bl_eat a' = true)) \/
   bl_out a' = (bl_ws a ++ body) :: before \/ bl_out a' = push_last (bl_ws a ++ body) before).
Proof.
  unfold block_step. destruct (is_empty (trim text)) eqn:Et.
  { intros H. apply ret_inv in H as [<- _]. exists (bl_out a), []. split; [auto|]. split; [|left; auto].
    intros x tag y E Ht. apply spelling_shape in Ht as (t & -> & _). destruct x; discriminate. }
  destruct (if is_empty (bl_ext a) then _ else _) as [[[tag atts] cite] eat]. intros H.
  apply bind_inv in H as (r & s1 & H1 & H). destruct r as [[[[[[[[out ext] tag'] atts'] cite'] body] eat'] closing] anon].
  apply bind_inv in H as (body' & s2 & H2 & H). apply ret_inv in H as [<- _]. cbn [bl_out bl_eat].
  exists out, (replace_all (rx_re BR_TAG_RE) (fun _ => br_tag T) body'). split; [|split; [apply spelled_all|]].
  - destruct (captures _ text).
    + apply bind_inv in H1 as (b & s3 & _ & H1). apply ret_inv in H1 as [H1 _]. inversion H1. destruct (is_empty (bl_ext a)); auto.
    + apply bind_inv in H1 as (b & s3 & _ & H1). apply ret_inv in H1 as [H1 _]. inversion H1. auto.
  - destruct (negb (is_empty ext) && anon); [auto|]. destruct eat'; auto.
Qed.
