(** Attribute specifications: classes and identifiers, alignments and spans. *)
From Verif Require Import Str Unicode Regex RegexParse RegexSnips RegexTheory RegexGroups Lib ModelBase ModelHtml ModelAttrs
  SpecRegex ProofRegex ProofCharref ProofParse ProofParas ProofSpanRe ProofTags ProofLinks ProofSections SpecAtts ProofItems ProofItemsStages.
#[local] Arguments u : simpl never.

Lemma NoDup_app_remove_l (a b : list nat) : NoDup (a ++ b) -> NoDup b.
Proof. induction a as [|x a IH]; intros H; [exact H|]. inversion H; auto. Qed.
Lemma NoDup_app_remove_r (a b : list nat) : NoDup (a ++ b) -> NoDup a.
Proof. induction a as [|x a IH]; intros H; [constructor|]. inversion H as [|y m H1 H2]; subst. constructor; [|auto]. intros F. apply H1, in_or_app. left. exact F. Qed.
Lemma noclass_pass x y : ~ In 40 x -> noclass y -> noclass (x ++ y).
Proof.
  intros Hx Hy a w b E H1 H2. apply app_cases in E as (z & [[-> E]|[-> E]]).
  - destruct z as [|d z]; [apply (Hy [] w b); auto; exact (eq_sym E)|]. injection E as <- _. destruct Hx. apply in_or_app. right. left. reflexivity.
  - apply (Hy z w b); auto.
Qed.
Lemma noclass_closed y : ~ In 41 y -> noclass y.
Proof. intros H a w b -> _ _. destruct H. apply in_or_app. right. right. apply in_or_app. right. left. reflexivity. Qed.
Lemma noclass_open y : ~ In 40 y -> noclass y.
Proof. intros H a w b -> _ _. destruct H. apply in_or_app. right. left. reflexivity. Qed.
Lemma noclass_touch n k t : (0 < k)%nat -> ~ In 40 t -> noclass (repeat 40 n ++ repeat 41 k ++ t).
Proof.
  intros Hk Ht. induction n as [|n IH].
  - cbn [repeat app]. apply noclass_open. intros F. apply in_app_or in F as [F|F]; [apply repeat_spec in F; discriminate|contradiction].
  - intros a w b E H1 H2. destruct a as [|d a].
    + cbn [repeat app] in E. injection E as E. destruct w as [|d w]; [reflexivity|]. exfalso. cbn [app] in E. destruct n as [|n].
      * destruct k as [|k]; [lia|]. cbn [repeat app] in E. injection E as <- _. apply H2. left. reflexivity.
      * cbn [repeat app] in E. injection E as <- _. apply H1. left. reflexivity.
    + cbn [repeat app] in E. injection E as _ E. apply (IH a w b); auto.
Qed.
Section CLASS.
Variables (el : element) (restricted : bool).
Let ok := item_ok el restricted.
Lemma list_noclass l : NoDup (map kind l) -> (forall x, In x l -> ok x) -> (forall x, In x l -> late restricted x) -> (forall x, In x l -> kind x <> 2%nat) ->
  (forall a n mid m b, l = a ++ PadLeft n :: mid ++ PadRight m :: b -> mid = []) -> noclass (items_text l).
Proof.
  intros Hd Hok Hl Hk Hp. assert (forall x, In x l -> kind x <> 3%nat -> ~ In 40 (item_text x)) as F3 by (intros x Hx H; apply (paren_free el restricted); [exact (Hok x Hx)|exact (Hl x Hx)|exact (Hk x Hx)|left; auto]).
  assert (forall x, In x l -> kind x <> 4%nat -> ~ In 41 (item_text x)) as F4 by (intros x Hx H; apply (paren_free el restricted); [exact (Hok x Hx)|exact (Hl x Hx)|exact (Hk x Hx)|right; auto]).
  destruct (kind_cases 3 l Hd) as [H|(l1 & x & l2 & E & Hx & Hy)].
  - apply noclass_open, free_items. intros x Hx. apply F3; auto.
  - destruct x as [| | |n| | | | | | | ]; try discriminate Hx. clear Hx.
    assert (~ In 40 (items_text l1)) as A1 by (apply free_items; intros y F; apply F3; [subst l; apply in_or_app; auto|apply Hy, in_or_app; auto]).
    assert (NoDup (map kind l2)) as D2 by (rewrite E, map_app in Hd; apply NoDup_app_remove_l in Hd; cbn [map] in Hd; inversion Hd; assumption).
    rewrite E, items_cut. apply noclass_pass; [exact A1|]. destruct (kind_cases 4 l2 D2) as [H|(m & x & l3 & E2 & Hx & Hy2)].
    + apply noclass_closed. intros F. apply in_app_or in F as [F|F]; [apply repeat_spec in F; discriminate|]. revert F. apply free_items. intros y F. apply F4; [subst l; apply in_or_app; right; right; exact F|apply H, F].
    + destruct x as [| | | |k| | | | | | ]; try discriminate Hx. assert (m = []) as -> by (apply (Hp l1 n m k l3); rewrite E, E2; reflexivity). cbn [app] in E2. rewrite E2. cbn [items_text flat_map item_text]. fold (items_text l3). apply noclass_touch.
      * assert (In (PadRight k) l) as Hi by (rewrite E, E2; apply in_or_app; right; right; left; reflexivity). exact (Hok _ Hi).
      * apply free_items. intros y F. apply F3; [rewrite E, E2; apply in_or_app; right; right; right; exact F|]. apply Hy. apply in_or_app. right. rewrite E2. right. exact F.
Qed.
(** ** Classes and identifiers *)
Definition f_class (x : item) : option str := match x with ClassId (c :: r) _ => Some (c :: r) | _ => None end.
Definition f_id (x : item) : option str := match x with ClassId _ i => i | _ => None end.
Lemma full_match k t : forallb (in_cls k) t = true -> is_match (RSeq (RAssert SOT) (RSeq (RGroup 1 (RStar true (RCls k))) (RAssert EOT))) t = true.
Proof.
  intros H. rewrite <- (app_nil_r t). eapply is_match_first. unfold match_at. rewrite m_seq, m_assert. cbn [assert_holds is_empty]. rewrite m_seq, m_group. apply m_star_greedy; [exact H|exact I|]. rewrite m_assert. reflexivity.
Qed.
Lemma class_text t : (forall x, In x t -> In x class_chars) -> is_match (rx_re CSS_CLASSES_RE) t = true.
Proof.
  intros H. unfold CSS_CLASSES_RE. cbn [rx_re]. apply full_match. apply forallb_forall. intros x Hx. apply H in Hx. match goal with |- in_cls ?k _ = true => assert (forallb (in_cls k) class_chars = true) as E by (vm_compute; reflexivity) end.
  rewrite forallb_forall in E. apply E, Hx.
Qed.
Lemma id_text t : (forall x, In x t -> In x id_part_chars) -> is_match (rx_re CSS_ID_RE) t = true.
Proof.
  intros H. unfold CSS_ID_RE. cbn [rx_re]. apply full_match. apply forallb_forall. intros x Hx. apply H in Hx. match goal with |- in_cls ?k _ = true => assert (forallb (in_cls k) id_part_chars = true) as E by (vm_compute; reflexivity) end.
  rewrite forallb_forall in E. apply E, Hx.
Qed.
Lemma once_none c t : ~ In c t -> Str.split_once c t = None.
Proof. induction t as [|x t IH]; intros H; [reflexivity|]. cbn [Str.split_once]. destruct (N.eqb_spec x c) as [->|]; [destruct H; left; reflexivity|]. rewrite IH; [reflexivity|]. intros F. apply H. right. exact F. Qed.
Lemma once_cut c t y : ~ In c t -> Str.split_once c (t ++ c :: y) = Some (t, y).
Proof. induction t as [|x t IH]; intros H; cbn [app Str.split_once]; [rewrite N.eqb_refl; reflexivity|]. destruct (N.eqb_spec x c) as [->|]; [destruct H; left; reflexivity|]. rewrite IH; [reflexivity|]. intros F. apply H. right. exact F. Qed.
Definition inside (c : str) (i : option str) : str := c ++ match i with Some i => u "#" ++ i | None => [] end.
Lemma class_meaning c i : ok (ClassId c i) -> class_and_id (inside c i) = (f_class (ClassId c i), f_id (ClassId c i)).
Proof.
  intros (H0 & H1 & H2 & _). assert (~ In 35 c) as Hc by (intros F; apply H1 in F; revert F; apply class_foreign; in_fixed). unfold class_and_id, inside. destruct i as [s|].
  - change (u "#" ++ s) with (35 :: s). rewrite once_cut by exact Hc. rewrite (id_text s (H2 s eq_refl)). cbn [f_id]. f_equal. destruct c as [|d c]; [reflexivity|]. cbn [is_empty f_class]. rewrite class_text by exact H1. reflexivity.
  - rewrite app_nil_r, once_none by exact Hc. rewrite class_text by exact H1. cbn [f_id]. destruct c as [|d c]; [destruct H0; congruence|]. reflexivity.
Qed.
Lemma inside_ok c i : ok (ClassId c i) -> inside c i <> [] /\ ~ In 40 (inside c i) /\ ~ In 41 (inside c i) /\ item_text (ClassId c i) = 40 :: inside c i ++ [41].
Proof.
  intros (H0 & H1 & H2 & _). assert (forall d, In d foreign -> d <> 35 -> ~ In d (inside c i)) as F.
  { intros d D1 D2 F. apply in_app_or in F as [F|F]; [apply (class_foreign d D1), H1, F|]. destruct i as [s|]; [|destruct F]. change (u "#" ++ s) with (35 :: s) in F. destruct F as [F|F]; [congruence|]. apply (id_foreign d); [right; exact D1|]. apply (H2 s eq_refl), F. }
  split; [|split; [|split]].
  - unfold inside. destruct c; [|discriminate]. destruct i; [discriminate|]. destruct H0; congruence.
  - apply F; [in_fixed|discriminate].
  - apply F; [in_fixed|discriminate].
  - cbn [item_text]. unfold inside. rewrite <- !app_assoc. reflexivity.
Qed.
Variable l : list item.
Hypothesis (Hd : NoDup (map kind l)) (Hok : forall x, In x l -> ok x) (Hl : forall x, In x l -> late restricted x).
Lemma class_stage : (forall a n mid m b, l = a ++ PadLeft n :: mid ++ PadRight m :: b -> mid = [] \/ exists c i, In (ClassId c i) mid) ->
  match captures (rx_re ATTR_ACLASS_RE) (items_text l) with
  | Some h => let '(c, i) := if restricted then (None, None) else class_and_id (cap_or 1 h) in (c, i, erase (items_text l) h)
  | None => (None, None, items_text l)
  end = (if restricted then None else pick f_class l, if restricted then None else pick f_id l, items_text (rem 2 l)).
Proof.
  intros Hp. rewrite aclass_is.
  assert (forall x, kind x <> 2%nat -> f_class x = None /\ f_id x = None) as Hf by (intros [] F; try (split; reflexivity); cbn in F; congruence).
  destruct (kind_cases 2 l Hd) as [H|(l1 & x & l2 & E & Hx & Hy)].
  - rewrite class_none.
    + rewrite !pick_none by (intros x Hx; apply Hf, H, Hx). rewrite rem_none by exact H. destruct restricted; reflexivity.
    + apply list_noclass; auto. intros a n mid m b E. destruct (Hp a n mid m b E) as [F|(c & i & F)]; [exact F|]. exfalso. apply (H (ClassId c i)); [|reflexivity]. rewrite E. apply in_or_app. right. right. apply in_or_app. left. exact F.
  - destruct x as [| |c i| | | | | | | | ]; try discriminate Hx. assert (ok (ClassId c i)) as Ho by (apply Hok; rewrite E; apply in_or_app; right; left; reflexivity).
    destruct (inside_ok c i Ho) as (W1 & W2 & W3 & W4).
    assert (noclass (items_text l1)) as N1.
    { apply list_noclass.
      - rewrite E, map_app in Hd. apply NoDup_app_remove_r in Hd. exact Hd.
      - intros y F. apply Hok. rewrite E. apply in_or_app. left. exact F.
      - intros y F. apply Hl. rewrite E. apply in_or_app. left. exact F.
      - intros y F. apply Hy, in_or_app. left. exact F.
      - intros a n mid m b E1. destruct (Hp a n mid m (b ++ ClassId c i :: l2)) as [F|(c' & i' & F)]; [rewrite E, E1, <- !app_assoc; cbn [app]; rewrite <- !app_assoc; reflexivity|exact F|].
        exfalso. apply (Hy (ClassId c' i')); [|reflexivity]. apply in_or_app. left. rewrite E1. apply in_or_app. right. right. apply in_or_app. left. exact F. }
    assert (noclass (items_text l2)) as N2.
    { apply list_noclass.
      - rewrite E, map_app in Hd. apply NoDup_app_remove_l in Hd. cbn [map] in Hd. inversion Hd. assumption.
      - intros y F. apply Hok. rewrite E. apply in_or_app. right. right. exact F.
      - intros y F. apply Hl. rewrite E. apply in_or_app. right. right. exact F.
      - intros y F. apply Hy, in_or_app. right. exact F.
      - intros a n mid m b E1. destruct (Hp (l1 ++ ClassId c i :: a) n mid m b) as [F|(c' & i' & F)]; [rewrite E, E1, <- !app_assoc; reflexivity|exact F|].
        exfalso. apply (Hy (ClassId c' i')); [|reflexivity]. apply in_or_app. right. rewrite E1. apply in_or_app. right. right. apply in_or_app. left. exact F. }
    destruct (class_found _ _ _ N1 N2 W1 W2 W3) as (h & Eh & Ec & Ee). rewrite E, items_cut, W4. rewrite Eh, Ec, Ee. rewrite !pick_cut by (intros y F; apply Hf, Hy, F). rewrite rem_cut by auto. rewrite items_app.
    rewrite class_meaning by exact Ho. destruct restricted; reflexivity.
Qed.
End CLASS.
