(** The first and last steps of [parse]; the settings. *)
From Verif Require Import Str Unicode Regex RegexParse RegexSnips RegexTheory RegexGroups Lib ModelBase ModelInline
  ModelParser SpecRegex ProofRegex SpecParse.
#[local] Arguments u : simpl never.

Lemma is_ws_iff c : is_ws c = true <-> white_space c.
Proof.
  unfold is_ws, white_space. rewrite !orb_true_iff, !andb_true_iff, !N.leb_le, !N.eqb_eq. tauto.
Qed.
Lemma blank_iff text : is_empty (trim text) = true <-> blank text.
Proof.
  rewrite is_empty_nil. unfold trim. rewrite trim_by_nil. unfold blank.
  rewrite forallb_forall, Forall_forall. split; intros H x Hx; apply is_ws_iff; auto.
Qed.

Lemma bind_inv {A B} (m : M A) (k : A -> M B) s b s' : bind m k s = Ret b s' ->
  exists a s1, m s = Ret a s1 /\ k a s1 = Ret b s'.
Proof. unfold bind. destruct (m s) as [a s1| |]; [eauto|discriminate|discriminate]. Qed.
Lemma if_app {A} (b : bool) (f g : M A) x : (if b then f else g) x = if b then f x else g x.
Proof. destruct b; reflexivity. Qed.

Lemma parse_blank W T fuel c text : blank text -> parse W T fuel c text = Ret text (new_state c).
Proof. intros H. unfold parse, parse_m. rewrite if_app. apply blank_iff in H. rewrite H. reflexivity. Qed.

Lemma parse_finish W T fuel c text html s : ~ blank text -> parse W T fuel c text = Ret html s ->
  exists t, html = finish T t.
Proof.
  intros Hb H. unfold parse, parse_m in H. rewrite if_app in H. destruct (is_empty (trim text)) eqn:E.
  { apply blank_iff in E. contradiction. }
  apply bind_inv in H as (v1 & s1 & _ & H). apply bind_inv in H as (v2 & s2 & _ & H).
  apply bind_inv in H as (v3 & s3 & _ & H). apply bind_inv in H as (v4 & s4 & _ & H).
  inversion H; subst. eauto.
Qed.

Lemma finish_no_newline T t w : finish T t <> w ++ [10].
Proof.
  intros H. unfold finish in H. unfold trim_end_matches in H. apply trim_end_by_last in H. discriminate.
Qed.

Lemma not_newline W T fuel c text html s : ~ blank text -> parse W T fuel c text = Ret html s ->
  forall w, html <> w ++ [10].
Proof. intros Hb H w. apply parse_finish in H as [t ->]; auto. apply finish_no_newline. Qed.

(** ** Break tags *)
Lemma no_lt_prefix : forall tag v x z, ~ In 60 tag -> tag ++ v = x ++ 60 :: z ->
  exists l, x = tag ++ l /\ v = l ++ 60 :: z.
Proof.
  induction tag as [|t tag IH]; intros v x z Hn E.
  - exists x. split; auto.
  - destruct x as [|y x].
    + cbn in E. inversion E; subst. exfalso. apply Hn. left; auto.
    + cbn in E. inversion E; subst. destruct (IH v x z) as (l & -> & ->); auto.
      { intros H; apply Hn; right; auto. }
      exists l. auto.
Qed.

Definition is_br (tag : str) : Prop := tag = u "<br>" \/ tag = u "<br />".
Lemma br_shape tag : is_br tag -> exists t, tag = 60 :: t /\ ~ In 60 t.
Proof.
  intros [ -> | -> ]; [exists (u "br>")|exists (u "br />")]; split; try reflexivity; lits; cbn [In]; lia.
Qed.
Definition one (c : N) : cls := mk_cls false [CRange c c].
Lemma in_one c x : in_cls (one c) x = (x =? c).
Proof.
  unfold in_cls, one. cbn [c_neg c_items existsb in_item]. rewrite orb_false_r, xorb_false_l.
  destruct (N.eqb_spec x c); subst; rewrite ?N.leb_refl; auto.
  destruct (N.leb_spec c x), (N.leb_spec x c); auto; lia.
Qed.
Lemma br_pattern_shape : rx_re BR_PATTERN =
  RSeq (RCls (one 60)) (RSeq (RCls (one 98)) (RSeq (RCls (one 114))
   (RSeq (RAlt (RGroup 1 (RSeq (RCls (one 32)) (RCls (one 47)))) REps) (RSeq (RCls (one 62)) (RNLook (RCls (one 10))))))).
Proof. reflexivity. Qed.
Ltac mstep := first [rewrite m_seq | rewrite m_group | rewrite m_cls | rewrite m_cls_nil | rewrite m_eps | rewrite m_alt
  | rewrite m_look | rewrite m_nlook | rewrite m_assert | rewrite m_back | rewrite m_back_nil ].
Ltac eval_one := rewrite in_one; match goal with |- context [?a =? ?b] =>
  let v := eval vm_compute in (a =? b) in
  match v with true => change (a =? b) with true | false => change (a =? b) with false end end; cbn iota.
Lemma br_matches tag b v : is_br tag -> v = [] \/ (exists c v', v = c :: v' /\ c <> 10) ->
  matches_here (rx_re BR_PATTERN) b (tag ++ v).
Proof.
  intros Ht Hv.
  assert (exists s, match_at (rx_re BR_PATTERN) b (tag ++ v) = Some s) as [s Hs].
  { rewrite br_pattern_shape. unfold match_at.
    destruct Ht as [ -> | -> ]; lits; cbn [app]; eexists; repeat (mstep; cbn [m_before m_after m_caps]; try eval_one);
      (destruct Hv as [ -> |(c & v' & -> & Hc)]; [reflexivity|]);
      rewrite m_cls, in_one; apply N.eqb_neq in Hc; rewrite Hc; reflexivity. }
  exists s. apply match_at_sound; auto.
Qed.

Lemma gap_none r adj b lit rest w c v : nullable r = false -> gap r adj b lit rest -> lit = w ++ c :: v ->
  ~ matches_here r (rev w ++ b) (c :: v ++ rest).
Proof.
  intros Hn Hg E. destruct (Hg w c v E) as [H|(_ & _ & s & H1 & H2)]; auto.
  apply match_at_sound in H1. apply nullable_false_moved in H1; auto. destruct H1 as (x & y & H3 & _).
  cbn [m_after] in H3. rewrite H2 in H3. apply (f_equal (@List.length N)) in H3.
  rewrite app_length in H3. simpl in H3. rewrite app_length in H3. lia.
Qed.

Lemma br_starts b rest s : match_at (rx_re BR_PATTERN) b rest = Some s -> exists r, rest = 60 :: r.
Proof.
  rewrite br_pattern_shape. unfold match_at. intros H. destruct rest as [|c rest].
  - rewrite m_seq, m_cls_nil in H. discriminate.
  - rewrite m_seq, m_cls, in_one in H. destruct (N.eqb_spec c 60); [subst; eauto|discriminate].
Qed.

Lemma cut_br fb adj b text lits hits tl : fb = 60 :: tl -> ~ In 60 tl ->
  (forall tag v R, is_br tag -> tag ++ v = fb ++ R -> exists v', v = 10 :: v') ->
  cut (rx_re BR_PATTERN) adj b text lits hits -> breaks_end_lines (interleave lits (map (fun _ => fb) hits)).
Proof.
  intros Hfb Htl Hself Hc. induction Hc as [adj b lit Hg Hend|adj b lit rest s lits hits Hg Hm Hadj Hc IH].
  - cbn [interleave map]. intros tag w v Ht E. pose proof (br_shape tag Ht) as (t & -> & Hnt).
    destruct v as [|c v]; auto. right. destruct (N.eq_dec c 10); [subst; eauto|exfalso].
    apply (gap_none (rx_re BR_PATTERN) _ _ _ _ w 60 (t ++ c :: v) eq_refl Hg); auto.
    rewrite app_nil_r. apply (br_matches (60 :: t)); eauto.
  - cbn [interleave map]. set (R := interleave lits (map (fun _ => fb) hits)) in *.
    intros tag w v Ht E. pose proof (br_shape tag Ht) as (t & Et & Hnt).
    apply br_starts in Hm as [rr ->].
    apply app_eq_app in E as [l [[H1 H2]|[H1 H2]]].
    + destruct l as [|x l].
      * cbn [app] in H2. right. eapply Hself; eauto.
      * subst tag. cbn [app] in H2. inversion H2 as [[Hx E2]]. subst x. rewrite Hfb in E2. cbn [app] in E2.
        apply no_lt_prefix in E2 as (l3 & -> & ->); auto.
        destruct l3 as [|c l3].
        -- exfalso. rewrite app_nil_r in H1.
           apply (gap_none (rx_re BR_PATTERN) _ _ _ _ w 60 t eq_refl Hg); auto.
           apply (br_matches (60 :: t)); auto. right. exists 60, rr. split; auto. lia.
        -- right. cbn [app]. destruct (N.eq_dec c 10); [subst; eauto|exfalso].
           apply (gap_none (rx_re BR_PATTERN) _ _ _ _ w 60 (t ++ c :: l3) eq_refl Hg); auto.
           rewrite <- app_assoc. apply (br_matches (60 :: t)); eauto. right. exists c, (l3 ++ 60 :: rr); auto.
    + destruct l as [|x l].
      * cbn [app] in H2. right. eapply Hself; eauto.
      * rewrite Hfb in H2. cbn [app] in H2. inversion H2 as [[Hx E2]]. subst x.
        apply app_eq_app in E2 as [l2 [[H3 H4]|[H3 H4]]].
        -- destruct l2 as [|x l2].
           ++ cbn [app] in H4. apply (IH tag [] v Ht). auto.
           ++ subst tag. cbn [app] in H4. inversion H4; subst x. exfalso. apply Htl. rewrite H3.
              apply in_or_app. right; left; auto.
        -- apply (IH tag l2 v Ht); auto.
Qed.

Lemma finish_breaks T t : breaks_end_lines (finish T t).
Proof.
  unfold finish. set (x := match t_sanitize T with Some clean => clean t | None => t end). clearbody x.
  destruct (substitution (rx_re BR_PATTERN) (fun _ => final_br T) x eq_refl) as (lits & hits & H1 & H2 & ->).
  assert (B : breaks_end_lines (interleave lits (map (fun _ => final_br T) hits))).
  { destruct (t_html T) eqn:E; unfold final_br; rewrite E.
    - apply (cut_br _ false [] x lits hits (u "br />" ++ nl)); [reflexivity|lits; unfold nl; cbn [In app]; lia| |exact H1].
      intros tag v R [ -> | -> ]; lits; unfold nl; cbn [app]; intros H; inversion H; eauto.
    - apply (cut_br _ false [] x lits hits (u "br>" ++ nl)); [reflexivity|lits; unfold nl; cbn [In app]; lia| |exact H1].
      intros tag v R [ -> | -> ]; lits; unfold nl; cbn [app]; intros H; inversion H; eauto. }
  unfold trim_end_matches. remember (interleave lits (map (fun _ => final_br T) hits)) as y eqn:Ey. clear Ey.
  destruct (trim_end_by_split (N.eqb 10) y) as (z & Hz & Hnl).
  intros tag w v Ht E. rewrite E in Hz.
  destruct (B tag w (v ++ z)) as [H|[v' H]]; auto.
  - rewrite Hz, <- !app_assoc. reflexivity.
  - left. destruct v; [auto|discriminate].
  - destruct v as [|c v]; [auto|]. right. cbn in H. inversion H; subst. eauto.
Qed.
Lemma parse_breaks W T fuel c text html s : ~ blank text -> parse W T fuel c text = Ret html s ->
  breaks_end_lines html.
Proof. intros Hb H. apply parse_finish in H as [t ->]; auto. apply finish_breaks. Qed.

(** ** Settings *)
Lemma call_own c T : read (kind c) (call c T) = meant c.
Proof.
  destruct c; cbn [read kind call meant set_images t_noimage]; rewrite ?negb_involutive; try reflexivity.
  unfold set_uid. cbn [t_uid t_link_prefix t_dyn]. f_equal. unfold dyn_template, uid_of.
  rewrite <- !app_assoc. reflexivity.
Qed.
Lemma call_other c T k : k <> kind c -> read k (call c T) = read k T.
Proof.
  intros H. destruct T; destruct c; do 10 (destruct k as [|k]; [first [exfalso; apply H; reflexivity|reflexivity]|]); reflexivity.
Qed.
Lemma call_over c c' T : kind c = kind c' -> call c (call c' T) = call c T.
Proof. destruct T; destruct c, c'; try discriminate; intros _; reflexivity. Qed.
Lemma call_commute c c' T : kind c <> kind c' -> call c (call c' T) = call c' (call c T).
Proof.
  destruct c, c'; intros H; try (exfalso; apply H; reflexivity); cbn [call]; unfold set_uid;
    try (generalize (dyn_template (uid_of base)); generalize (uid_of base); generalize (base ++ u "-"); intros ? ? ?);
    destruct T; reflexivity.
Qed.
Lemma calls_last cs T k : read k (calls cs T) =
  match find (fun c => Nat.eqb (kind c) k) (rev cs) with Some c => meant c | None => read k T end.
Proof.
  unfold calls. rewrite <- fold_left_rev_right. induction (rev cs) as [|c l IH]; cbn [fold_right find]; auto.
  destruct (Nat.eqb_spec (kind c) k) as [H|H].
  - subst. apply call_own.
  - rewrite call_other; auto.
Qed.
Lemma calls_align cs T : t_align_class (calls cs T) = t_align_class T.
Proof.
  unfold calls. rewrite <- fold_left_rev_right. induction (rev cs) as [|c l IH]; cbn [fold_right]; auto.
  destruct c; exact IH.
Qed.
Lemma align_class_unusable id v : ~ exists cs, t_align_class (calls cs (default_textile id)) = Some v.
Proof. intros [cs H]. rewrite calls_align in H. discriminate. Qed.
Lemma align_class_by_kind id cs : use_align_class (calls cs (default_textile id)) =
  match t_html (calls cs (default_textile id)) with XHTML => false | HTML5 => true end.
Proof. unfold use_align_class. rewrite calls_align. reflexivity. Qed.
