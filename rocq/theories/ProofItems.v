(** Attribute specifications mean what they say. *)
From Verif Require Import Str Unicode Regex RegexParse RegexSnips RegexTheory RegexGroups Lib ModelBase ModelHtml ModelAttrs
  SpecRegex ProofRegex ProofCharref ProofParse ProofParas ProofSpanRe ProofTags ProofSections SpecAtts.
#[local] Arguments u : simpl never.

(** ** Searching and erasing *)
Lemma find_skip r y : forall x before, (forall a c b, x = a ++ c :: b -> match_at r (rev a ++ before) (c :: b ++ y) = None) -> find_from r before (x ++ y) = find_from r (rev x ++ before) y.
Proof.
  induction x as [|c x IH]; intros before H; [reflexivity|]. cbn [app find_from]. pose proof (H [] c x eq_refl) as E0. cbn [rev app] in E0. unfold str in *. rewrite E0. rewrite IH.
  - cbn [rev]. rewrite <- app_assoc. reflexivity.
  - intros a d b ->. specialize (H (c :: a) d b eq_refl). cbn [rev] in H. rewrite <- app_assoc in H. exact H.
Qed.
Lemma captures_at r x y s : (forall a c b, x = a ++ c :: b -> match_at r (rev a) (c :: b ++ y) = None) -> match_at r (rev x) y = Some s -> captures r (x ++ y) = Some (mk_hit_of y s).
Proof.
  intros H E. unfold captures, find_first. rewrite find_skip.
  - rewrite app_nil_r. destruct y; cbn [find_from]; rewrite E; reflexivity.
  - intros a c b Hx. rewrite app_nil_r. apply H. exact Hx.
Qed.
Lemma skip_go w to k : forall z, (k = List.length z)%nat -> forall y, replace_go w to k (z ++ y) = replace_go w to 0 y.
Proof. revert k. induction k as [|k IH]; intros z Hz y; destruct z as [|c z]; try discriminate; [reflexivity|]. cbn [app replace_go]. apply IH. cbn [List.length] in Hz. lia. Qed.
Lemma erase_at w x y : w <> [] -> (forall a c b, x = a ++ c :: b -> starts_with w (c :: b ++ w ++ y) = false) -> contains w y = false -> replace_str (x ++ w ++ y) w [] = x ++ y.
Proof.
  intros Hn Hx Hy. unfold replace_str. destruct w as [|d w]; [congruence|]. induction x as [|c x IH].
  - cbn [app]. cbn [replace_go]. assert (starts_with (d :: w) (d :: w ++ y) = true) as -> by (apply starts_with_iff; exists y; reflexivity). cbn [app]. rewrite skip_go by (cbn [List.length]; lia).
    pose proof (replace_absent (d :: w) [] y Hn Hy) as E. unfold replace_str in E. exact E.
  - cbn [app replace_go]. pose proof (Hx [] c x eq_refl) as E0. cbn [app] in E0. unfold str in *. rewrite E0. cbn [app]. f_equal. apply IH. intros a e b ->. apply (Hx (c :: a) e b). reflexivity.
Qed.
Lemma erase_first d w x y : ~ In d x -> ~ In d y -> replace_str (x ++ (d :: w) ++ y) (d :: w) [] = x ++ y.
Proof.
  intros Hx Hy. apply erase_at; [discriminate| |].
  - intros a c b ->. cbn [starts_with]. destruct (N.eqb_spec d c) as [<-|]; [|reflexivity]. destruct Hx. apply in_or_app. right. left. reflexivity.
  - destruct (contains (d :: w) y) eqn:E; auto. apply contains_split in E as (a & b & ->). destruct Hy. apply in_or_app. right. left. reflexivity.
Qed.
Lemma start_skip o k x y : ~ In o x -> forall a c b, x = a ++ c :: b -> match_at (RSeq (RCls (one o)) k) (rev a) (c :: b ++ y) = None.
Proof. intros H a c b ->. unfold match_at. rewrite m_seq, m_cls, in_one. destruct (N.eqb_spec c o) as [->|]; [|reflexivity]. destruct H. apply in_or_app. right. left. reflexivity. Qed.
Lemma start_none o k t : ~ In o t -> captures (RSeq (RCls (one o)) k) t = None.
Proof.
  intros H. apply captures_no_match. intros a b ->. unfold match_at. rewrite m_seq. destruct b as [|c b]; [reflexivity|]. rewrite m_cls, in_one. destruct (N.eqb_spec c o) as [->|]; [|reflexivity]. destruct H. apply in_or_app. right. left. reflexivity.
Qed.
Lemma hit_text w y s : m_after s = y -> h_text (mk_hit_of (w ++ y) s) = w.
Proof. intros <-. unfold mk_hit_of. cbn [h_text]. apply cap_str_app. Qed.
(** Something between brackets. *)
Definition enclosed (o c : N) (nb : cls) : re := RSeq (RCls (one o)) (RSeq (RGroup 1 (RSeq (RCls nb) (RStar true (RCls nb)))) (RCls (one c))).
Lemma enclosed_at o c nb before w y : w <> [] -> forallb (in_cls nb) w = true -> in_cls nb c = false ->
  exists s, match_at (enclosed o c nb) before ((o :: w ++ [c]) ++ y) = Some s /\ m_after s = y /\ cap_text 1 (m_caps s) = Some w.
Proof.
  intros Hn Hw Hc. destruct w as [|d w]; [congruence|]. cbn [forallb] in Hw. apply andb_prop in Hw as [Hd Hw].
  exists (mk_mst (c :: rev w ++ d :: o :: before) y [(1%nat, (d :: w ++ c :: y, c :: y))]). split; [|split; [reflexivity|]].
  - cbn [app]. rewrite <- app_assoc. cbn [app]. unfold match_at, enclosed. rewrite m_seq, m_cls, in_one, N.eqb_refl. rewrite m_seq, m_group, m_seq, m_cls, Hd. apply m_star_greedy; [exact Hw|exact Hc|].
    cbn [m_before m_after m_caps]. rewrite m_cls, in_one, N.eqb_refl. reflexivity.
  - unfold cap_text. cbn [m_caps find_cap Nat.eqb option_map]. f_equal. apply (cap_str_app (d :: w) (c :: y)).
Qed.
Lemma style_at before w y : w <> [] -> ~ In 125 w ->
  exists s, match_at (rx_re ATTR_STYLE_RE) before ((123 :: w ++ [125]) ++ y) = Some s /\ m_after s = y /\ cap_text 1 (m_caps s) = Some w.
Proof.
  intros Hn Hw. set (nb := mk_cls true [CRange 125 125]). assert (forallb (in_cls nb) w = true) as Hw'.
  { apply forallb_forall. intros x Hx. unfold nb, in_cls. cbn [c_neg c_items existsb in_item]. rewrite orb_false_r. destruct (N.leb_spec 125 x), (N.leb_spec x 125); try reflexivity. assert (x = 125) as -> by lia. contradiction. }
  exists (mk_mst (125 :: rev w ++ 123 :: before) y [(1%nat, (w ++ 125 :: y, 125 :: y))]). split; [|split; [reflexivity|]].
  - cbn [app]. rewrite <- app_assoc. cbn [app]. unfold match_at. change (rx_re ATTR_STYLE_RE) with (RSeq (RCls (one 123)) (RSeq (RGroup 1 (RStar true (RCls nb))) (RCls (one 125)))).
    rewrite m_seq, m_cls, in_one, N.eqb_refl. rewrite m_seq, m_group. apply m_star_greedy; [exact Hw'|reflexivity|]. cbn [m_before m_after m_caps]. rewrite m_cls, in_one, N.eqb_refl. reflexivity.
  - unfold cap_text. cbn [m_caps find_cap Nat.eqb option_map]. f_equal. apply (cap_str_app w (125 :: y)).
Qed.
(** A run of a character. *)
Definition run_re (d : N) : re := RGroup 1 (RSeq (RCls (one d)) (RStar true (RCls (one d)))).
Lemma run_at d before n y : ~ In d y -> exists s, match_at (run_re d) before (repeat d (S n) ++ y) = Some s /\ m_after s = y /\ cap_text 1 (m_caps s) = Some (repeat d (S n)).
Proof.
  intros Hy. exists (mk_mst (rev (repeat d n) ++ d :: before) y [(1%nat, (repeat d (S n) ++ y, y))]). split; [|split; [reflexivity|]].
  - cbn [repeat app]. unfold match_at, run_re. rewrite m_group, m_seq, m_cls, in_one, N.eqb_refl. apply m_star_greedy.
    + apply forallb_forall. intros x Hx. apply repeat_spec in Hx as ->. rewrite in_one. apply N.eqb_refl.
    + destruct y as [|c y]; [exact I|]. cbn [stops]. rewrite in_one. destruct (N.eqb_spec c d) as [->|]; [|reflexivity]. destruct Hy. left. reflexivity.
    + reflexivity.
  - unfold cap_text. cbn [m_caps find_cap Nat.eqb option_map]. f_equal. apply cap_str_app.
Qed.
Lemma run_skip d x y : ~ In d x -> forall a c b, x = a ++ c :: b -> match_at (run_re d) (rev a) (c :: b ++ y) = None.
Proof. intros H a c b ->. unfold match_at, run_re. rewrite m_group, m_seq, m_cls, in_one. destruct (N.eqb_spec c d) as [->|]; [|reflexivity]. destruct H. apply in_or_app. right. left. reflexivity. Qed.
Lemma run_none d t : ~ In d t -> captures (run_re d) t = None.
Proof.
  intros H. apply captures_no_match. intros a b ->. unfold match_at, run_re. rewrite m_group, m_seq. destruct b as [|c b]; [reflexivity|]. rewrite m_cls, in_one. destruct (N.eqb_spec c d) as [->|]; [|reflexivity]. destruct H. apply in_or_app. right. left. reflexivity.
Qed.
(** A number after a mark. *)
Definition nd : cls := mk_cls false [CProp false PNd].
Definition number_re (o : N) : re := RSeq (RCls (one o)) (RGroup 1 (RSeq (RCls nd) (RStar true (RCls nd)))).
Lemma digit_nd c : is_digit_ascii c = true -> in_cls nd c = true.
Proof.
  intros H. assert (forallb (in_cls nd) (u "0123456789") = true) as F by (vm_compute; reflexivity). rewrite forallb_forall in F. apply F. unfold is_digit_ascii in H. apply andb_prop in H as [H1 H2]. apply N.leb_le in H1, H2.
  assert (c = 48 \/ c = 49 \/ c = 50 \/ c = 51 \/ c = 52 \/ c = 53 \/ c = 54 \/ c = 55 \/ c = 56 \/ c = 57) as D by lia. vm_compute. repeat (destruct D as [->|D]; [tauto|]). subst. tauto.
Qed.
Lemma number_at o before n y : (match y with c :: _ => in_cls nd c = false | [] => True end) -> exists s, match_at (number_re o) before ((o :: dec n) ++ y) = Some s /\ m_after s = y /\ cap_text 1 (m_caps s) = Some (dec n).
Proof.
  intros Hy. destruct (dec_spec n) as (Hn & Hd & _). destruct (dec n) as [|d w]; [congruence|]. cbn [forallb] in Hd. apply andb_prop in Hd as [Hd Hw].
  exists (mk_mst (rev w ++ d :: o :: before) y [(1%nat, (d :: w ++ y, y))]). split; [|split; [reflexivity|]].
  - cbn [app]. unfold match_at, number_re. rewrite m_seq, m_cls, in_one, N.eqb_refl. rewrite m_group, m_seq, m_cls, (digit_nd d Hd). apply m_star_greedy; [|exact Hy|reflexivity].
    apply forallb_forall. intros x Hx. apply digit_nd. rewrite forallb_forall in Hw. apply Hw. exact Hx.
  - unfold cap_text. cbn [m_caps find_cap Nat.eqb option_map]. f_equal. apply (cap_str_app (d :: w) y).
Qed.
(** ** Classes *)
Definition noclass (t : str) : Prop := forall a w b, t = a ++ 40 :: w ++ 41 :: b -> ~ In 40 w -> ~ In 41 w -> w = [].
Definition np : cls := mk_cls true [CRange 40 40; CRange 41 41].
Lemma in_np c : in_cls np c = negb ((c =? 40) || (c =? 41)).
Proof. unfold np, in_cls. cbn [c_neg c_items existsb in_item]. rewrite !range_one, orb_false_r. reflexivity. Qed.
Lemma np_all w : ~ In 40 w -> ~ In 41 w -> forallb (in_cls np) w = true.
Proof. intros H1 H2. apply forallb_forall. intros c Hc. rewrite in_np. destruct (N.eqb_spec c 40) as [->|]; [contradiction|]. destruct (N.eqb_spec c 41) as [->|]; [contradiction|]. reflexivity. Qed.
Lemma enclosed_some o c nb before t s : match_at (enclosed o c nb) before t = Some s -> exists w b, t = o :: w ++ c :: b /\ w <> [] /\ forallb (in_cls nb) w = true.
Proof.
  intros H. apply match_at_sound, Mat_word in H as (v & [M1 _] & Hv). cbn [m_after] in M1. unfold enclosed in Hv.
  inversion Hv as [| |a b v1 v2 H1 H2| | | | | | | | | |]; subst. inversion H1 as [|k x Hx| | | | | | | | | | |]; subst. rewrite in_one in Hx. apply N.eqb_eq in Hx. subst x.
  inversion H2 as [| |a b v3 v4 H3 H4| | | | | | | | | |]; subst. inversion H4 as [|k x Hx| | | | | | | | | | |]; subst. rewrite in_one in Hx. apply N.eqb_eq in Hx. subst x.
  inversion H3 as [| | | | | | |n a w Hw| | | | |]; subst. apply word_plus_cls in Hw as [Hn Hw]. exists v3, (m_after s). split; [|auto]. cbn [app]. rewrite <- app_assoc. reflexivity.
Qed.
Lemma app_cases (b z w z' : str) : b ++ z = w ++ z' -> exists l, (b = w ++ l /\ z' = l ++ z) \/ (w = b ++ l /\ z = l ++ z').
Proof.
  revert w. induction b as [|x b IH]; intros w H; [exists w; right; auto|]. destruct w as [|y w]; [exists (x :: b); left; auto|]. cbn [app] in H. injection H as -> H. apply IH in H as (l & [[-> ->]|[-> ->]]); exists l; auto.
Qed.
Lemma class_inside b c y w z : b ++ 40 :: c ++ 41 :: y = w ++ 41 :: z -> ~ In 40 w -> exists l, b = w ++ 41 :: l.
Proof.
  intros E Hw. apply app_cases in E as (l & [[-> E]|[-> E]]).
  - destruct l as [|d l]; [discriminate|]. injection E as <- _. exists l. reflexivity.
  - exfalso. destruct l as [|d l]; [discriminate|]. injection E as <- _. apply Hw, in_or_app. right. left. reflexivity.
Qed.
Lemma np_of w : forallb (in_cls np) w = true -> ~ In 40 w /\ ~ In 41 w.
Proof. intros H. rewrite forallb_forall in H. split; intros F; apply H in F; rewrite in_np in F; discriminate. Qed.
Definition ACLASS : re := enclosed 40 41 np.
Lemma aclass_is : rx_re ATTR_ACLASS_RE = ACLASS. Proof. reflexivity. Qed.
Lemma class_skip x c y : noclass x -> forall a d b, x = a ++ d :: b -> match_at ACLASS (rev a) (d :: b ++ (40 :: c ++ [41]) ++ y) = None.
Proof.
  intros Hx a d b ->. destruct (match_at _ _ _) as [s|] eqn:E; [|reflexivity]. exfalso. apply enclosed_some in E as (w & z & E & Hn & Hw). apply np_of in Hw as [W1 W2]. injection E as -> E. cbn [app] in E. rewrite <- app_assoc in E. cbn [app] in E.
  apply class_inside in E as (l & ->); [|exact W1]. apply Hn. apply (Hx a w l); auto.
Qed.
Lemma class_none t : noclass t -> captures ACLASS t = None.
Proof.
  intros H. apply captures_no_match. intros a b ->. destruct (match_at _ _ _) as [s|] eqn:E; [|reflexivity]. exfalso. apply enclosed_some in E as (w & z & -> & Hn & Hw). apply np_of in Hw as [W1 W2]. apply Hn. apply (H a w z); auto.
Qed.
Lemma class_found x c y : noclass x -> noclass y -> c <> [] -> ~ In 40 c -> ~ In 41 c ->
  exists h, captures ACLASS (x ++ (40 :: c ++ [41]) ++ y) = Some h /\ cap_or 1 h = c /\ erase (x ++ (40 :: c ++ [41]) ++ y) h = x ++ y.
Proof.
  intros Hx Hy Hn C1 C2. destruct (enclosed_at 40 41 np (rev x) c y) as (s & E & Ea & Ec); auto using np_all.
  exists (mk_hit_of ((40 :: c ++ [41]) ++ y) s). split; [apply captures_at; [apply class_skip; exact Hx|exact E]|]. split; [unfold cap_or, cap_opt, mk_hit_of; cbn [h_caps]; rewrite Ec; reflexivity|].
  unfold erase. rewrite hit_text by exact Ea. apply erase_at; [discriminate| |].
  - intros a d b ->. destruct (starts_with _ _) eqn:F; [|reflexivity]. exfalso. apply starts_with_iff in F as (z & F). cbn [app] in F. injection F as -> F. rewrite <- !app_assoc in F. cbn [app] in F.
    apply class_inside in F as (l & ->); [|exact C1]. apply Hn. apply (Hx a c l); auto.
  - destruct (contains _ y) eqn:F; [|reflexivity]. exfalso. apply contains_split in F as (a & b & ->). apply Hn. apply (Hy a c b); auto. cbn [app]. rewrite <- app_assoc. reflexivity.
Qed.

(** ** Lists of items *)
Lemma items_app l1 l2 : items_text (l1 ++ l2) = items_text l1 ++ items_text l2.
Proof. apply flat_map_app. Qed.
Lemma items_cut l1 x l2 : items_text (l1 ++ x :: l2) = items_text l1 ++ item_text x ++ items_text l2.
Proof. rewrite items_app. reflexivity. Qed.
Lemma free_items c l : (forall x, In x l -> ~ In c (item_text x)) -> ~ In c (items_text l).
Proof. intros H F. apply in_flat_map in F as (x & F1 & F2). exact (H x F1 F2). Qed.
Definition rem (k : nat) (l : list item) : list item := filter (fun x => negb (kind x =? k)%nat) l.
Lemma rem_none k l : (forall x, In x l -> kind x <> k) -> rem k l = l.
Proof. induction l as [|x l IH]; intros H; [reflexivity|]. cbn [rem filter]. destruct (Nat.eqb_spec (kind x) k) as [F|F]; [destruct (H x); auto; left; reflexivity|]. cbn [negb]. f_equal. apply IH. intros y Hy. apply H. right. exact Hy. Qed.
Lemma rem_cut k l1 x l2 : (forall y, In y (l1 ++ l2) -> kind y <> k) -> kind x = k -> rem k (l1 ++ x :: l2) = l1 ++ l2.
Proof.
  intros H Hx. unfold rem. rewrite filter_app. cbn [filter]. rewrite (proj2 (Nat.eqb_eq _ _) Hx). cbn [negb]. fold (rem k l1) (rem k l2). rewrite !rem_none; auto; intros y Hy; apply H, in_or_app; auto.
Qed.
Lemma in_rem k l x : In x (rem k l) <-> In x l /\ kind x <> k.
Proof. unfold rem. rewrite filter_In. destruct (Nat.eqb_spec (kind x) k); cbn; intuition congruence. Qed.
Lemma nodup_filter f l : NoDup (map kind l) -> NoDup (map kind (filter f l)).
Proof.
  induction l as [|x l IH]; intros H; [exact H|]. cbn [map] in H. inversion H as [|y m H1 H2]; subst. cbn [filter]. destruct (f x); [|auto]. cbn [map]. constructor; [|auto].
  intros F. apply H1. apply in_map_iff in F as (y & F1 & F2). apply filter_In in F2 as [F2 _]. rewrite <- F1. apply in_map. exact F2.
Qed.
Lemma kind_cases k l : NoDup (map kind l) -> (forall x, In x l -> kind x <> k) \/ exists l1 x l2, l = l1 ++ x :: l2 /\ kind x = k /\ forall y, In y (l1 ++ l2) -> kind y <> k.
Proof.
  induction l as [|x l IH]; intros H; [left; intros x []|]. cbn [map] in H. inversion H as [|y m H1 H2]; subst. destruct (Nat.eq_dec (kind x) k) as [E|E].
  - right. exists [], x, l. split; [reflexivity|]. split; [exact E|]. cbn [app]. intros y Hy F. apply H1. rewrite E, <- F. apply in_map. exact Hy.
  - destruct (IH H2) as [F|(l1 & y & l2 & -> & F1 & F2)].
    + left. intros y [<-|Hy]; auto.
    + right. exists (x :: l1), y, l2. split; [reflexivity|]. split; [exact F1|]. intros z [<-|Hz]; auto.
Qed.
Lemma pick_none {A} (f : item -> option A) l : (forall x, In x l -> f x = None) -> pick f l = None.
Proof. induction l as [|x l IH]; intros H; [reflexivity|]. cbn [pick]. rewrite (H x) by (left; reflexivity). apply IH. intros y Hy. apply H. right. exact Hy. Qed.
Lemma pick_cut {A} (f : item -> option A) l1 x l2 : (forall y, In y (l1 ++ l2) -> f y = None) -> pick f (l1 ++ x :: l2) = f x.
Proof.
  induction l1 as [|z l1 IH]; intros H.
  - cbn [app pick]. rewrite pick_none by exact H. destruct (f x); reflexivity.
  - cbn [app pick]. rewrite (H z) by (left; reflexivity). apply IH. intros y Hy. apply H. right. exact Hy.
Qed.
Lemma pick_rem {A} (f : item -> option A) k l : (forall x, kind x = k -> f x = None) -> pick f (rem k l) = pick f l.
Proof.
  intros H. induction l as [|x l IH]; [reflexivity|]. cbn [rem filter]. destruct (Nat.eqb_spec (kind x) k) as [E|E]; cbn [negb].
  - cbn [pick]. rewrite (H x E). exact IH.
  - cbn [pick]. fold (rem k l). rewrite IH. reflexivity.
Qed.
(** One kind of item, searched for by its first character. *)
Lemma stage r o k l : NoDup (map kind l) -> (forall x, In x l -> kind x <> k -> ~ In o (item_text x)) ->
  (forall t, ~ In o t -> captures r t = None) ->
  (forall l1 x l2, l = l1 ++ x :: l2 -> kind x = k -> ~ In o (items_text l1) -> ~ In o (items_text l2) ->
     exists w, item_text x = o :: w /\ exists h, captures r (items_text l) = Some h /\ h_text h = item_text x) ->
  (captures r (items_text l) = None /\ forall x, In x l -> kind x <> k) \/
  exists l1 x l2 h, l = l1 ++ x :: l2 /\ kind x = k /\ (forall y, In y (l1 ++ l2) -> kind y <> k) /\ ~ In o (items_text l1) /\ ~ In o (items_text l2) /\
    captures r (items_text l) = Some h /\ h_text h = item_text x /\ erase (items_text l) h = items_text (rem k l).
Proof.
  intros Hd Ho Hn Hf. destruct (kind_cases k l Hd) as [F|(l1 & x & l2 & E & F1 & F2)].
  - left. split; [|exact F]. apply Hn. apply free_items. intros x Hx. apply Ho; auto.
  - right. assert (~ In o (items_text l1)) as O1 by (apply free_items; intros y Hy; apply Ho; [subst l; apply in_or_app; auto|apply F2, in_or_app; auto]).
    assert (~ In o (items_text l2)) as O2 by (apply free_items; intros y Hy; apply Ho; [subst l; apply in_or_app; right; right; auto|apply F2, in_or_app; auto]).
    destruct (Hf l1 x l2 E F1 O1 O2) as (w & Ew & h & Hh & Ht). exists l1, x, l2, h. do 7 (split; [assumption|]).
    unfold erase. rewrite Ht. subst l. rewrite items_cut, Ew. rewrite erase_first by assumption. rewrite rem_cut by assumption. rewrite items_app. reflexivity.
Qed.
