(** Proofs about attribute lists and attribute specifications. *)
From Verif Require Import Str Unicode Regex RegexParse RegexSnips RegexTheory RegexGroups Lib ModelBase ModelHtml ModelAttrs SpecAttrs.

#[local] Arguments u : simpl never.

(** ** Order *)
Lemma str_cmp_eq a b : str_cmp a b = Eq <-> a = b.
Proof.
  revert b. induction a as [|x a IH]; intros [|y b]; simpl; split; try congruence; auto.
  - destruct (x ?= y) eqn:E; try discriminate. apply N.compare_eq in E. intros H. apply IH in H; congruence.
  - intros H; inversion H; subst. rewrite N.compare_refl. apply IH; auto.
Qed.
Lemma str_cmp_lt a b : str_cmp a b = Lt <-> lex_lt a b.
Proof.
  split.
  - revert b. induction a as [|x a IH]; intros [|y b]; simpl; try discriminate.
    + intros; constructor.
    + destruct (x ?= y) eqn:E; try discriminate.
      * apply N.compare_eq in E; subst. intros H; apply LexTail; auto.
      * intros _. apply N.compare_lt_iff in E. apply LexHead; auto.
  - induction 1; simpl; auto.
    + apply N.compare_lt_iff in H. rewrite H; auto.
    + rewrite N.compare_refl; auto.
Qed.
Lemma str_cmp_gt a b : str_cmp a b = Gt -> lex_lt b a.
Proof.
  revert b. induction a as [|x a IH]; intros [|y b]; simpl; try discriminate.
  - intros; constructor.
  - destruct (x ?= y) eqn:E; try discriminate.
    + apply N.compare_eq in E; subst. intros H; apply LexTail; auto.
    + intros _. apply N.compare_gt_iff in E. apply LexHead; auto.
Qed.
Lemma lex_trans a b c : lex_lt a b -> lex_lt b c -> lex_lt a c.
Proof.
  intros H. revert c. induction H; intros e He; inversion He; subst;
    solve [apply LexNil | apply LexHead; lia | apply LexTail; auto].
Qed.
Lemma lex_irrefl a : ~ lex_lt a a.
Proof. induction a; intros H; inversion H; subst; [lia|auto]. Qed.

(** ** Insertion *)
Lemma insert_mem k v l k' v' : increasing l ->
  (In (k', v') (bt_insert k v l) <-> (k' = k /\ v' = v) \/ (k' <> k /\ In (k', v') l)).
Proof.
  induction l as [|[k0 v0] l IH]; cbn [bt_insert increasing].
  - intros _. simpl. split; [intros [H|[]]; inversion H; auto|intros [[-> ->]|[_ []]]; auto].
  - intros [Hf Hi]. rewrite Forall_forall in Hf. destruct (str_cmp k k0) eqn:E.
    + apply str_cmp_eq in E; subst k0. simpl. split.
      * intros [H|H]; [inversion H; auto|]. right. split; [|auto]. intros ->.
        apply (lex_irrefl k). apply (Hf _ H).
      * intros [[-> ->]|[Hn [H|H]]]; auto. inversion H; congruence.
    + apply str_cmp_lt in E. simpl. split.
      * intros [H|[H|H]].
        -- inversion H; auto.
        -- inversion H; subst. right; split; auto. intros ->. apply (lex_irrefl k E).
        -- right; split; auto. intros ->. apply (lex_irrefl k). eapply lex_trans; [apply E|apply (Hf _ H)].
      * intros [[-> ->]|[Hn H]]; auto.
    + apply str_cmp_gt in E. specialize (IH Hi). split.
      * intros [H|H].
        -- inversion H; subst. right; split; [|left; auto]. intros ->. apply (lex_irrefl k E).
        -- apply IH in H as [H|[H1 H2]]; auto. right; split; auto. right; auto.
      * intros [[-> ->]|[Hn [H|H]]]; [right|left; auto|right]; apply IH; auto.
Qed.

Lemma insert_increasing k v l : increasing l -> increasing (bt_insert k v l).
Proof.
  induction l as [|[k0 v0] l IH]; cbn [bt_insert increasing]; [auto|].
  intros [Hf Hi]. destruct (str_cmp k k0) eqn:E.
  - apply str_cmp_eq in E; subst. split; auto.
  - apply str_cmp_lt in E. cbn [increasing]. split; [|auto].
    constructor; auto. rewrite Forall_forall in *. intros x Hx. eapply lex_trans; [apply E|apply Hf; auto].
  - apply str_cmp_gt in E. cbn [increasing]. split; auto.
    rewrite Forall_forall in *. intros [k1 v1] Hx. apply insert_mem in Hx as [[-> ->]|[_ Hx]]; auto.
Qed.

Lemma assoc_mem k l : increasing l -> forall v : str, assoc k l = Some v <-> In (k, v) l.
Proof.
  induction l as [|[k0 v0] l IH]; cbn [assoc increasing]; intros Hi v.
  - simpl. split; [discriminate|tauto].
  - destruct Hi as [Hf Hi]. rewrite Forall_forall in Hf. destruct (seqb k0 k) eqn:E.
    + apply seqb_eq in E; subst. split.
      * intros H; inversion H; left; auto.
      * intros [H|H]; [inversion H; auto|]. exfalso. apply (lex_irrefl k). apply (Hf _ H).
    + apply seqb_neq in E. rewrite (IH Hi). split; [right; auto|].
      intros [H|H]; [inversion H; congruence|auto].
Qed.

Lemma css_increasing n l : increasing l -> increasing (insert_css_class n l).
Proof.
  intros H. unfold insert_css_class. destruct (css_class_ok n); auto.
  destruct (assoc (u "class") l); apply insert_increasing; auto.
Qed.

(** ** CSS class names *)
Definition css_letter_cls : cls :=
  mk_cls false [CRange 95 95; CRange 97 122; CRange 65 90; CRange 8490 8490; CRange 383 383].
Definition css_rest_cls : cls :=
  mk_cls false [CRange 95 95; CRange 97 122; CRange 65 90; CRange 8490 8490; CRange 383 383; CRange 48 57; CRange 45 45].
Lemma css_letter_in c : in_cls css_letter_cls c = true <-> css_letter c.
Proof.
  unfold in_cls, css_letter_cls. cbn [c_neg c_items existsb in_item]. rewrite xorb_false_l.
  unfold css_letter. rewrite !orb_true_iff, !andb_true_iff, !N.leb_le. split; [intros; lia|].
  intros [H|[H|[ -> | [ -> | -> ] ]]]; [right; right; left|right; left|left|right; right; right; right; left|right; right; right; left]; lia.
Qed.
Lemma css_rest_in c : in_cls css_rest_cls c = true <-> css_rest c.
Proof.
  unfold css_rest. rewrite <- css_letter_in.
  unfold in_cls, css_letter_cls, css_rest_cls. cbn [c_neg c_items existsb in_item]. rewrite !xorb_false_l, !orb_false_r.
  rewrite !orb_true_iff, !andb_true_iff, !N.leb_le. split; [|intros [H|[H|H]]].
  - intros [H|[H|[H|[H|[H|[H|H]]]]]]; auto 8. right; right; lia.
  - tauto.
  - auto 10.
  - do 6 right. lia.
Qed.

Lemma css_re_shape : rx_re CSS_CLASS_NAME_RE =
  RSeq (RAssert SOT) (RSeq (RAlt (RCls (mk_cls false [CRange 45 45])) REps)
    (RSeq (RCls css_letter_cls) (RSeq (RStar true (RCls css_rest_cls)) (RAssert EOT)))).
Proof. reflexivity. Qed.

Lemma Mat_seq_assoc a b c s s' : Mat (RSeq a (RSeq b c)) s s' <-> Mat (RSeq (RSeq a b) c) s s'.
Proof.
  split; intros H.
  - inversion H as [| |a0 b0 s0 s1 s2 Ha Hb| | | | | | | | | |]; subst.
    inversion Hb as [| |a0 b0 s0 s3 s4 Hc Hd| | | | | | | | | |]; subst.
    econstructor; [econstructor; eauto|eauto].
  - inversion H as [| |a0 b0 s0 s1 s2 Ha Hb| | | | | | | | | |]; subst.
    inversion Ha as [| |a0 b0 s0 s3 s4 Hc Hd| | | | | | | | | |]; subst.
    econstructor; [eauto|econstructor; eauto].
Qed.

Lemma one_in x c : in_cls (mk_cls false [CRange x x]) c = true <-> c = x.
Proof.
  unfold in_cls. cbn [c_neg c_items existsb in_item]. rewrite xorb_false_l, orb_false_r, andb_true_iff, !N.leb_le. lia.
Qed.

Lemma css_ok_iff s : is_match (rx_re CSS_CLASS_NAME_RE) s = true <-> css_name s.
Proof.
  rewrite css_re_shape. split.
  - unfold is_match. destruct (captures _ s) as [h|] eqn:E; [|discriminate]. intros _.
    apply captures_some in E as (w & v & s1 & H1 & H2 & H3). apply match_at_sound in H2.
    assert (Hm : is_match (RSeq (RAssert SOT) (RSeq (RSeq (RAlt (RCls (mk_cls false [CRange 45 45])) REps)
                   (RSeq (RCls css_letter_cls) (RStar true (RCls css_rest_cls)))) (RAssert EOT))) s = true).
    { assert (H4 : Mat (RSeq (RAssert SOT) (RSeq (RSeq (RAlt (RCls (mk_cls false [CRange 45 45])) REps)
                   (RSeq (RCls css_letter_cls) (RStar true (RCls css_rest_cls)))) (RAssert EOT)))
                   (mk_mst (rev w) v []) s1).
      { inversion H2 as [| |a0 b0 s0 s2 s3 Ha Hb| | | | | | | | | |]; subst.
        econstructor; [exact Ha|]. apply Mat_seq_assoc.
        inversion Hb as [| |a0 b0 s0 s4 s3 Hc Hd| | | | | | | | | |]; subst.
        econstructor; [exact Hc|]. apply Mat_seq_assoc. exact Hd. }
      assert (H5 : w = []).
      { inversion H4 as [| |a0 b0 s0 s2 s3 Ha Hb| | | | | | | | | |]; subst.
        inversion Ha as [| | | | | | | | | | | |a1 s3 Hs E1 E2]; subst. cbn in Hs.
        destruct (rev w) eqn:Er; [|discriminate]. apply (f_equal (@rev N)) in Er. rewrite rev_involutive in Er. exact Er. }
      subst w. cbn [app rev] in *. subst v.
      destruct (match_at (RSeq (RAssert SOT) (RSeq (RSeq (RAlt (RCls (mk_cls false [CRange 45 45])) REps)
                   (RSeq (RCls css_letter_cls) (RStar true (RCls css_rest_cls)))) (RAssert EOT))) [] s) as [s2|] eqn:E.
      - eapply is_match_first; eauto.
      - exfalso. rewrite match_at_none in E by reflexivity. apply E. exists s1. exact H4. }
    apply anchored_word in Hm.
    inversion Hm as [| |a0 b0 v1 w1 Ha Hb| | | | | | | | | |]; subst.
    inversion Hb as [| |a0 b0 v2 w2 Hc Hd| | | | | | | | | |]; subst.
    inversion Hc as [|k0 c Hk| | | | | | | | | | |]; subst. apply word_star_cls in Hd.
    exists v1, c, w2. split; auto. split; [|split].
    + inversion Ha as [| | |a0 b0 w3 He|a0 b0 w3 He| | | | | | | |]; subst.
      * inversion He as [|k0 d Hk'| | | | | | | | | | |]; subst. apply one_in in Hk'; subst; auto.
      * inversion He; auto.
    + apply css_letter_in; auto.
    + apply Forall_forall. intros x Hx. rewrite forallb_forall in Hd. apply css_rest_in; auto.
  - intros (hy & c & rest & -> & Hhy & Hc & Hrest).
    assert (Hr : forallb (in_cls css_rest_cls) rest = true).
    { apply forallb_forall. intros x Hx. rewrite Forall_forall in Hrest. apply css_rest_in; auto. }
    apply css_letter_in in Hc.
    assert (G : forall before, m (RSeq (RCls css_letter_cls) (RSeq (RStar true (RCls css_rest_cls)) (RAssert EOT)))
                 (mk_mst before (c :: rest) []) Some = Some (mk_mst (rev rest ++ c :: before) [] [])).
    { intros before. rewrite m_seq, m_cls, Hc, m_seq. rewrite <- (app_nil_r rest) at 1.
      apply m_star_greedy; auto. exact I. }
    destruct Hhy as [->| ->]; cbn [app].
    + eapply is_match_first. unfold match_at. rewrite m_seq, m_assert. cbn [assert_holds is_empty].
      rewrite m_seq, m_alt, m_cls. destruct (in_cls (mk_cls false [CRange 45 45]) c) eqn:E.
      * apply one_in in E; subst. discriminate.
      * rewrite m_eps. apply G.
    + eapply is_match_first. unfold match_at. rewrite m_seq, m_assert. cbn [assert_holds is_empty].
      rewrite m_seq. apply m_alt_l. rewrite m_cls. cbn [in_cls]. apply G.
Qed.

(** ** Attribute specifications *)
(** What a specification can give. *)
Definition decimal_opt (o : option str) : Prop := match o with Some v => decimal_text v | None => True end.

Lemma nd_word g w : word (RSeq (RCls (mk_cls false [CProp false PNd])) (RStar g (RCls (mk_cls false [CProp false PNd])))) w
  -> decimal_text w.
Proof.
  intros H. apply word_plus_cls in H as [H1 H2]. split; auto.
  apply Forall_forall. intros x Hx. rewrite forallb_forall in H2. specialize (H2 x Hx).
  unfold in_cls in H2. cbn [c_neg c_items existsb in_item] in H2. rewrite xorb_false_l, orb_false_r, xorb_false_l in H2.
  exact H2.
Qed.

Lemma decimal_group r n h : hit_of r h ->
  (forall a, In a (groups_of n r) -> a = RSeq (RCls (mk_cls false [CProp false PNd])) (RStar true (RCls (mk_cls false [CProp false PNd])))) ->
  decimal_opt (cap_text n (h_caps h)).
Proof.
  intros Hh Ha. destruct (cap_text n (h_caps h)) as [t|] eqn:E; cbn; auto.
  destruct (hit_group r h n t Hh E) as (a & H1 & H2). rewrite (Ha a H1) in H2. eapply nd_word; eauto.
Qed.

Lemma first_group_decimal r text :
  (forall a, In a (groups_of 1 (rx_re r)) -> a = RSeq (RCls (mk_cls false [CProp false PNd])) (RStar true (RCls (mk_cls false [CProp false PNd])))) ->
  decimal_opt (first_group r text).
Proof.
  intros H. unfold first_group. destruct (captures (rx_re r) text) as [h|] eqn:E; cbn; auto.
  apply captures_hit in E. cbn [cap_opt]. eapply decimal_group; eauto.
Qed.

Lemma class_chars s : is_match (rx_re CSS_CLASSES_RE) s = true -> Forall class_char s.
Proof.
  intros H.
  assert (E : rx_re CSS_CLASSES_RE = RSeq (RAssert SOT) (RSeq (RGroup 1 (RStar true (RCls (mk_cls false
     [CRange 45 45; CRange 97 122; CRange 65 90; CRange 32 32; CRange 48 57; CRange 95 95; CRange 46 46;
      CRange 47 47; CRange 91 91; CRange 93 93])))) (RAssert EOT))) by reflexivity.
  rewrite E in H. apply anchored_word in H. inversion H; subst.
  match goal with Hw : word (RStar _ _) _ |- _ => apply word_star_cls in Hw; rename Hw into Hs end.
  apply Forall_forall. intros c Hc. rewrite forallb_forall in Hs. specialize (Hs c Hc).
  unfold in_cls in Hs. cbn [c_neg c_items existsb in_item] in Hs. rewrite xorb_false_l, orb_false_r in Hs.
  rewrite !orb_true_iff, !andb_true_iff, !N.leb_le in Hs. unfold class_char, ascii_alnum. lits. cbn [In].
  destruct Hs as [Hs|[Hs|[Hs|[Hs|[Hs|[Hs|[Hs|[Hs|[Hs|Hs]]]]]]]]]; auto; right;
    [left|right; left|right; right; left|do 3 right; left|do 4 right; left|do 5 right; left|do 6 right; left]; lia.
Qed.
Lemma id_chars s : is_match (rx_re CSS_ID_RE) s = true -> Forall id_char s.
Proof.
  intros H.
  assert (E : rx_re CSS_ID_RE = RSeq (RAssert SOT) (RSeq (RGroup 1 (RStar true (RCls (mk_cls false
     [CRange 45 45; CRange 97 122; CRange 65 90; CRange 48 57; CRange 95 95; CRange 46 46; CRange 58 58])))) (RAssert EOT)))
    by reflexivity.
  rewrite E in H. apply anchored_word in H. inversion H; subst.
  match goal with Hw : word (RStar _ _) _ |- _ => apply word_star_cls in Hw; rename Hw into Hs end.
  apply Forall_forall. intros c Hc. rewrite forallb_forall in Hs. specialize (Hs c Hc).
  unfold in_cls in Hs. cbn [c_neg c_items existsb in_item] in Hs. rewrite xorb_false_l, orb_false_r in Hs.
  rewrite !orb_true_iff, !andb_true_iff, !N.leb_le in Hs. unfold id_char, ascii_alnum. lits. cbn [In].
  destruct Hs as [Hs|[Hs|[Hs|[Hs|[Hs|[Hs|Hs]]]]]]; auto; right;
    [left|right; left|right; right; left|do 3 right; left]; lia.
Qed.

Definition all_opt (P : N -> Prop) (o : option str) : Prop := match o with Some v => Forall P v | None => True end.

Lemma class_and_id_ok mix : all_opt class_char (fst (class_and_id mix)) /\ all_opt id_char (snd (class_and_id mix)).
Proof.
  unfold class_and_id. destruct (split_once 35 mix) as [[lft rgt]|].
  - cbn [fst snd]. split.
    + destruct (is_empty lft); [exact I|]. destruct (is_match (rx_re CSS_CLASSES_RE) lft) eqn:E; [|exact I].
      apply class_chars; auto.
    + destruct (is_match (rx_re CSS_ID_RE) rgt) eqn:E; [|exact I]. apply id_chars; auto.
  - cbn [fst snd]. split; [|exact I]. destruct (is_match (rx_re CSS_CLASSES_RE) mix) eqn:E; [|exact I].
    apply class_chars; auto.
Qed.

Lemma valign_ok el t s v s' : valign_style el t s = Ret v s' -> s' = s /\ Forall own_style v.
Proof.
  unfold valign_style. destruct (el_is_td_tr el); [|intros H; inversion H; auto].
  destruct (captures _ t) as [h|]; [|intros H; inversion H; auto].
  destruct (seqb (h_text h) (u "^")); [|destruct (seqb (h_text h) (u "-"));
    [|destruct (seqb (h_text h) (u "~")); [|discriminate]]];
  intros H; inversion H; split; auto; (constructor; [|constructor]).
  - apply (OwnVertical (u "top")). vm_compute; auto.
  - apply (OwnVertical (u "middle")). vm_compute; auto.
  - apply (OwnVertical (u "bottom")). vm_compute; auto.
Qed.
Lemma halign_ok t s v s' : halign_style t s = Ret v s' -> s' = s /\ Forall own_style v.
Proof.
  unfold halign_style. destruct (captures _ t) as [h|]; [|intros H; inversion H; auto].
  unfold bind, capx, of_opt. destruct (cap_text 1 (h_caps h)) as [x|]; [|discriminate].
  unfold ret at 1. cbv beta iota.
  destruct (seqb x (u "<")); [|destruct (seqb x (u "=")); [|destruct (seqb x (u ">"));
    [|destruct (seqb x (u "<>")); [|discriminate]]]];
  intros H; inversion H; split; auto; (constructor; [|constructor]).
  - apply (OwnText (u "left")). vm_compute; auto.
  - apply (OwnText (u "center")). vm_compute; auto.
  - apply (OwnText (u "right")). vm_compute; auto.
  - apply (OwnText (u "justify")). vm_compute; auto.
Qed.

Record ba_ok (restricted : bool) (a : block_attrs) : Prop := mk_ba_ok {
  bo_colspan : decimal_opt (ba_colspan a);
  bo_rowspan : decimal_opt (ba_rowspan a);
  bo_span : decimal_opt (ba_span a);
  bo_width : decimal_opt (ba_width a);
  bo_class : all_opt class_char (ba_class a);
  bo_id : all_opt id_char (ba_id a);
  bo_restricted : restricted = true ->
    ba_class a = None /\ ba_id a = None /\
    match ba_style a with
    | None => True
    | Some v => exists l, l <> [] /\ Forall own_style l /\ v = join (u "; ") l ++ u ";"
    end }.

Lemma ba_parse_ok text el inc restricted s a s' :
  block_attributes_parse text el inc restricted s = Ret a s' -> s' = s /\ ba_ok restricted a.
Proof.
  unfold block_attributes_parse. destruct (is_empty text).
  { intros H; inversion H; subst. split; auto. constructor; cbn; auto. }
  unfold bind at 1. destruct (valign_style el text s) as [va s1| |] eqn:Ev; try discriminate.
  apply valign_ok in Ev as [-> Hv].
  set (x1 := if restricted then ([], text) else _).
  assert (Hx1 : restricted = true -> fst x1 = []) by (intros ->; reflexivity).
  destruct x1 as [style1 t1]. cbn [fst] in Hx1.
  destruct (match captures (rx_re ATTR_LANG_RE) t1 with Some h => (cap_opt 1 h, erase t1 h) | None => (None, t1) end) as [lang t2].
  set (x2 := match captures (rx_re ATTR_ACLASS_RE) t2 with Some h => _ | None => _ end).
  assert (Hx2 : all_opt class_char (fst (fst x2)) /\ all_opt id_char (snd (fst x2)) /\
                (restricted = true -> fst (fst x2) = None /\ snd (fst x2) = None)).
  { unfold x2. destruct (captures (rx_re ATTR_ACLASS_RE) t2) as [h|]; [|cbn; auto].
    destruct restricted; [cbn; auto|].
    pose proof (class_and_id_ok (cap_or 1 h)) as Hc. destruct (class_and_id (cap_or 1 h)) as [c i]. cbn in *.
    split; [|split]; try apply Hc. discriminate. }
  destruct x2 as [[ac bi] t3]. cbn [fst snd] in Hx2.
  set (x3 := match captures (rx_re ATTR_PADDING_LEFT_RE) t3 with Some h => _ | None => _ end).
  assert (Hx3 : Forall own_style (fst x3)).
  { unfold x3. destruct (captures (rx_re ATTR_PADDING_LEFT_RE) t3); cbn [fst]; repeat constructor. }
  destruct x3 as [st2 t4]. cbn [fst] in Hx3.
  set (x4 := match captures (rx_re ATTR_PADDING_RIGHT_RE) t4 with Some h => _ | None => _ end).
  assert (Hx4 : Forall own_style (fst x4)).
  { unfold x4. destruct (captures (rx_re ATTR_PADDING_RIGHT_RE) t4); cbn [fst]; repeat constructor. }
  destruct x4 as [st3 t5]. cbn [fst] in Hx4.
  unfold bind. destruct (halign_style t5 s) as [ha s2| |] eqn:Eh; try discriminate.
  apply halign_ok in Eh as [-> Hh].
  set (x5 := if el_is_col el then _ else _).
  assert (Hx5 : decimal_opt (fst x5) /\ decimal_opt (snd x5)).
  { unfold x5. destruct (el_is_col el); [|cbn; auto].
    destruct (captures (rx_re ATTR_COL_RE) t5) as [h|] eqn:E; [|cbn; auto]. apply captures_hit in E.
    cbn [fst snd cap_opt]. split; (eapply decimal_group; [exact E|]); cbn; intuition. }
  destruct x5 as [sp wi]. cbn [fst snd] in Hx5.
  intros H; inversion H; subst a s'. split; auto.
  constructor; cbn [ba_colspan ba_style ba_class ba_id ba_rowspan ba_lang ba_span ba_width].
  - destruct (el_is_td el); [|exact I]. apply first_group_decimal. cbn; intuition.
  - destruct (el_is_td el); [|exact I]. apply first_group_decimal. cbn; intuition.
  - apply Hx5.
  - apply Hx5.
  - apply Hx2.
  - destruct inc; [|exact I]. apply Hx2.
  - intros Hr. destruct Hx2 as (_ & _ & Hx2). destruct (Hx2 Hr) as [-> ->].
    split; auto. split; [destruct inc; auto|].
    rewrite (Hx1 Hr). cbn [app].
    assert (Hall : Forall own_style (va ++ st2 ++ st3 ++ ha)) by (rewrite !Forall_app; auto).
    destruct (va ++ st2 ++ st3 ++ ha) as [|x l]; [exact I|]. exists (x :: l). split; [discriminate|auto].
Qed.

(** The attribute list made of them. *)
Definition opt_attr (k : string) (o : option str) : list (str * str) :=
  match o with Some v => [(u k, v)] | None => [] end.
Lemma ba_html_attrs_eq a : ba_html_attrs a =
  opt_attr "class" (ba_class a) ++ opt_attr "colspan" (ba_colspan a) ++ opt_attr "id" (ba_id a)
  ++ opt_attr "lang" (ba_lang a) ++ opt_attr "rowspan" (ba_rowspan a) ++ opt_attr "span" (ba_span a)
  ++ opt_attr "style" (ba_style a) ++ opt_attr "width" (ba_width a).
Proof. destruct a as [[c|] [s|] [cl|] [i|] [r|] [l|] [sp|] [w|]]; reflexivity. Qed.

Lemma ba_html_in a k v : In (k, v) (ba_html_attrs a) <->
  (k = u "class" /\ ba_class a = Some v) \/ (k = u "colspan" /\ ba_colspan a = Some v) \/
  (k = u "id" /\ ba_id a = Some v) \/ (k = u "lang" /\ ba_lang a = Some v) \/
  (k = u "rowspan" /\ ba_rowspan a = Some v) \/ (k = u "span" /\ ba_span a = Some v) \/
  (k = u "style" /\ ba_style a = Some v) \/ (k = u "width" /\ ba_width a = Some v).
Proof.
  assert (G : forall n o, In (k, v) (opt_attr n o) <-> k = u n /\ o = Some v).
  { intros n [x|]; cbn; split.
    - intros [H|[]]; inversion H; auto.
    - intros [-> H]; inversion H; auto.
    - intros [].
    - intros [_ H]; discriminate. }
  rewrite ba_html_attrs_eq, !in_app_iff, !G. tauto.
Qed.

(** ** The properties *)
Definition apply_op (l : html_attrs) (o : attr_op) : html_attrs :=
  match o with OpSet k v => attr_insert k v l | OpClass n => insert_css_class n l end.
Definition run_ops (ops : list attr_op) : html_attrs := fold_left apply_op ops [].

Lemma run_ops_increasing ops : increasing (run_ops ops).
Proof.
  unfold run_ops. assert (G : forall l, increasing l -> increasing (fold_left apply_op ops l)).
  { induction ops as [|o ops IH]; cbn [fold_left]; auto. intros l Hl. apply IH.
    destruct o; cbn [apply_op]; [apply insert_increasing|apply css_increasing]; auto. }
  apply G. exact I.
Qed.
Lemma run_ops_set ops k v k' v' : In (k', v') (run_ops (ops ++ [OpSet k v])) <->
  (k' = k /\ v' = v) \/ (k' <> k /\ In (k', v') (run_ops ops)).
Proof.
  unfold run_ops. rewrite fold_left_app. cbn [fold_left apply_op].
  apply insert_mem. apply (run_ops_increasing ops).
Qed.
Lemma run_ops_class ops name k v : In (k, v) (run_ops (ops ++ [OpClass name])) <->
  (css_name (trim name) /\ k = u "class" /\
     ((exists c, In (u "class", c) (run_ops ops) /\ v = c ++ u " " ++ trim name) \/
      ((forall c, ~ In (u "class", c) (run_ops ops)) /\ v = trim name))) \/
  ((~ css_name (trim name) \/ k <> u "class") /\ In (k, v) (run_ops ops)).
Proof.
  pose proof (run_ops_increasing ops) as Hi.
  unfold run_ops at 1. rewrite fold_left_app. cbn [fold_left apply_op]. fold (run_ops ops).
  unfold insert_css_class, css_class_ok. destruct (is_match (rx_re CSS_CLASS_NAME_RE) (trim name)) eqn:E.
  - apply css_ok_iff in E. destruct (assoc (u "class") (run_ops ops)) as [c|] eqn:Ea.
    + apply (assoc_mem _ _ Hi) in Ea. unfold attr_insert. rewrite (insert_mem _ _ _ k v Hi). split.
      * intros [[-> ->]|[Hk H]]; [left; eauto 8|right; auto].
      * intros [(_ & -> & [(c' & Hc & ->)|[Hn _]])|[[Hn|Hk] H]]; auto.
        -- left; split; auto. apply (assoc_mem _ _ Hi) in Hc, Ea. congruence.
        -- exfalso; eapply Hn; eauto.
    + assert (Hn : forall c, ~ In (u "class", c) (run_ops ops)).
      { intros c Hc. apply (assoc_mem _ _ Hi) in Hc. congruence. }
      unfold attr_insert. rewrite (insert_mem _ _ _ k v Hi). split.
      * intros [[-> ->]|[Hk H]]; [left; eauto 8|right; auto].
      * intros [(_ & -> & [(c' & Hc & ->)|[_ Hv]])|[[Hn'|Hk] H]]; auto.
        exfalso; eapply Hn; eauto.
  - assert (Hn : ~ css_name (trim name)) by (rewrite <- css_ok_iff; congruence).
    split; [intros H; right; auto|]. intros [[H _]|[_ H]]; [contradiction|auto].
Qed.
Lemma spec_increasing a : increasing (ba_html_attrs a).
Proof.
  unfold ba_html_attrs, attr_add.
  destruct (ba_width a), (ba_style a), (ba_span a), (ba_rowspan a), (ba_lang a), (ba_id a), (ba_colspan a), (ba_class a);
    repeat apply insert_increasing; exact I.
Qed.

Lemma restricted_spec text el inc s a s' k v :
  block_attributes_parse text el inc true s = Ret a s' -> In (k, v) (ba_html_attrs a) ->
  k <> u "class" /\ k <> u "id" /\
  (k = u "style" -> exists l, l <> [] /\ Forall own_style l /\ v = join (u "; ") l ++ u ";").
Proof.
  intros H Hin. apply ba_parse_ok in H as [_ H]. destruct H. destruct (bo_restricted0 eq_refl) as (Hc & Hi & Hs).
  apply ba_html_in in Hin. rewrite Hc, Hi in Hin.
  destruct Hin as [[-> Hv]|[[-> Hv]|[[-> Hv]|[[-> Hv]|[[-> Hv]|[[-> Hv]|[[-> Hv]|[-> Hv]]]]]]]];
    try discriminate; repeat split; try discriminate.
  intros _. rewrite Hv in Hs. exact Hs.
Qed.

Lemma spec_values text el inc restricted s a s' k v :
  block_attributes_parse text el inc restricted s = Ret a s' -> In (k, v) (ba_html_attrs a) ->
  (k = u "class" -> Forall class_char v) /\ (k = u "id" -> Forall id_char v) /\
  (In k (map u ["colspan"; "rowspan"; "span"; "width"]%string) -> decimal_text v) /\
  In k (map u ["class"; "colspan"; "id"; "lang"; "rowspan"; "span"; "style"; "width"]%string).
Proof.
  intros H Hin. apply ba_parse_ok in H as [_ H]. destruct H.
  apply ba_html_in in Hin.
  destruct Hin as [[-> Hv]|[[-> Hv]|[[-> Hv]|[[-> Hv]|[[-> Hv]|[[-> Hv]|[[-> Hv]|[-> Hv]]]]]]]];
    (split; [intros Hk; try discriminate Hk|split; [intros Hk; try discriminate Hk|split]]);
    try (rewrite Hv in *; cbn in *; assumption);
    try (intros Hk; rewrite Hv in *; assumption);
    try (intros Hk; exfalso; revert Hk; vm_compute; intuition discriminate);
    vm_compute; tauto.
Qed.
