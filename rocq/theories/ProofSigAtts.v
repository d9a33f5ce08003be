(** The attributes of a signature: how far they reach. *)
From Verif Require Import Str Unicode Regex RegexParse RegexSnips RegexTheory RegexGroups Lib ModelBase ModelHtml ModelAttrs
  SpecRegex ProofRegex ProofCharref ProofParse ProofParas ProofSpanRe ProofTags ProofLinks ProofSections SpecAtts ProofGlyphs ProofItems ProofItemsStages ProofItemsClass ProofItemsTop SpecSigned.
#[local] Arguments u : simpl never.

Definition until (c : N) : cls := mk_cls true [CRange c c; CRange 10 10].
Definition closed_re (o c : N) : re := RSeq (RCls (one o)) (RSeq (RSeq (RCls (until c)) (RStar true (RCls (until c)))) (RCls (one c))).
Definition class_re := closed_re 40 41.
Definition style_re := closed_re 123 125.
Definition lang_re := closed_re 91 93.
Definition halign_re : re := match HALIGN with RGroup _ a => a | _ => REps end.
Definition align_re : re := RStar true (RAlt halign_re (RCls vmark)).
Definition opt (a : re) : re := RAlt a REps.
Definition cls_re : re :=
  opt (RAlt (RSeq class_re (opt (RAlt (RSeq lang_re (opt style_re)) (RSeq style_re (opt lang_re)))))
      (RAlt (RSeq lang_re (opt (RAlt (RSeq class_re (opt style_re)) (RSeq style_re (opt class_re)))))
            (RSeq style_re (opt (RAlt (RSeq class_re (opt lang_re)) (RSeq lang_re (opt class_re))))))).
Lemma atts_split : tag_atts = RSeq align_re (RSeq cls_re align_re). Proof. vm_compute. reflexivity. Qed.

(** ** What is matched *)
Inductive spelt : str -> Prop :=
| Sp_nil : spelt []
| Sp_mark c w : In c (u "<>=()-^~") -> spelt w -> spelt (c :: w)
| Sp_part o c b w : In (o, c) [(40, 41); (123, 125); (91, 93)] -> ~ In c b -> spelt w -> spelt (o :: b ++ c :: w).
Lemma spelt_app a b : spelt a -> spelt b -> spelt (a ++ b).
Proof.
  intros Ha Hb. induction Ha as [|c w Hc _ IH|o c d w Ho Hd _ IH]; [exact Hb|cbn [app]; apply Sp_mark; auto|].
  cbn [app]. rewrite <- app_assoc. cbn [app]. eapply Sp_part; eauto.
Qed.
Lemma word_cls k w : word (RCls k) w -> exists x, w = [x] /\ in_cls k x = true.
Proof. inversion 1; subst. eauto. Qed.
Lemma word_seq a b w : word (RSeq a b) w -> exists x y, w = x ++ y /\ word a x /\ word b y.
Proof. inversion 1; subst. eauto. Qed.
Lemma word_alt a b w : word (RAlt a b) w -> word a w \/ word b w.
Proof. inversion 1; subst; auto. Qed.
Lemma word_eps w : word REps w -> w = [].
Proof. inversion 1. reflexivity. Qed.
Lemma word_nlook a w : word (RNLook a) w -> w = [].
Proof. inversion 1. reflexivity. Qed.
Lemma word_back k w : word (RBack k) w -> w = [].
Proof. inversion 1. reflexivity. Qed.
Lemma word_star g a (P : str -> Prop) : P [] -> (forall x y, word a x -> P y -> P (x ++ y)) -> forall w, word (RStar g a) w -> P w.
Proof.
  intros H0 HS w H. remember (RStar g a) as r eqn:E. induction H; try discriminate; injection E as <- <-; auto.
Qed.
Lemma word_one c w : word (RCls (one c)) w -> w = [c].
Proof. intros H. apply word_cls in H as (x & -> & H). rewrite in_one in H. apply N.eqb_eq in H as ->. reflexivity. Qed.
Lemma word_run k w : word (RStar true (RCls k)) w -> forallb (in_cls k) w = true.
Proof. apply (word_star true (RCls k) (fun w => forallb (in_cls k) w = true)); [reflexivity|]. intros x y H Hy. apply word_cls in H as (c & -> & Hc). cbn [app forallb]. rewrite Hc. exact Hy. Qed.
Lemma until_not c w : forallb (in_cls (until c)) w = true -> ~ In c w.
Proof. intros H F. rewrite forallb_forall in H. apply H in F. unfold until, in_cls in F. cbn [c_neg c_items existsb in_item] in F. rewrite !N.leb_refl in F. discriminate. Qed.
Lemma word_closed o c w : word (closed_re o c) w -> exists b, w = o :: b ++ [c] /\ ~ In c b.
Proof.
  intros H. apply word_seq in H as (x & y & -> & H1 & H). apply word_one in H1 as ->. apply word_seq in H as (b & z & -> & H2 & H3). apply word_one in H3 as ->. exists b. split; [reflexivity|].
  apply word_seq in H2 as (d & e & -> & H4 & H5). apply word_cls in H4 as (x & -> & Hx). apply word_run in H5. apply until_not. cbn [app forallb]. rewrite Hx. exact H5.
Qed.
Lemma spelt_closed o c w : In (o, c) [(40, 41); (123, 125); (91, 93)] -> word (closed_re o c) w -> spelt w.
Proof. intros Hi H. apply word_closed in H as (b & -> & Hb). apply (Sp_part o c b []); [exact Hi|exact Hb|constructor]. Qed.
Lemma spelt_run w : forallb (in_cls parens) w = true -> spelt w.
Proof.
  induction w as [|c w IH]; intros H; [constructor|]. cbn [forallb] in H. apply andb_prop in H as [H1 H2]. apply Sp_mark; [|auto].
  unfold parens, in_cls in H1. cbn [c_neg c_items existsb in_item] in H1. rewrite !range_one, orb_false_r, xorb_false_l in H1. apply orb_prop in H1 as [H1|H1]; apply N.eqb_eq in H1 as ->; in_fixed.
Qed.
Lemma spelt_align w : word align_re w -> spelt w.
Proof.
  apply (word_star true _ spelt); [constructor|]. intros x y H Hy. apply spelt_app; [|exact Hy]. clear y Hy. apply word_alt in H as [H|H].
  - unfold halign_re, HALIGN in H. repeat (apply word_alt in H as [H|H]).
    + apply word_seq in H as (a & b & -> & H1 & H2). apply word_one in H1 as ->. apply word_nlook in H2 as ->. apply Sp_mark; [in_fixed|constructor].
    + apply word_seq in H as (a & b & -> & H1 & H2). apply word_one in H2 as ->. apply word_nlook in H1 as ->. apply Sp_mark; [in_fixed|constructor].
    + apply word_seq in H as (a & b & -> & H1 & H2). apply word_one in H1 as ->. apply word_one in H2 as ->. apply Sp_mark; [in_fixed|]. apply Sp_mark; [in_fixed|constructor].
    + apply word_one in H as ->. apply Sp_mark; [in_fixed|constructor].
    + apply word_seq in H as (a & b & -> & H1 & H2). apply word_nlook in H2 as ->. rewrite app_nil_r. apply word_seq in H1 as (c & d & -> & H1 & H2). apply word_cls in H1 as (x & -> & Hx). apply word_run in H2.
      apply spelt_run. cbn [app forallb]. rewrite Hx. exact H2.
  - apply word_cls in H as (c & -> & H). apply in_vmark in H. apply Sp_mark; [|constructor]. vm_compute in H. vm_compute. tauto.
Qed.
Ltac spell H :=
  match type of H with
  | word (opt _) _ => unfold opt in H; spell H
  | word (RAlt _ _) _ => apply word_alt in H as [H|H]; spell H
  | word (RSeq class_re _) _ => let a := fresh in let b := fresh in let H1 := fresh in let H2 := fresh in apply word_seq in H as (a & b & -> & H1 & H2); apply spelt_app; [spell H1|spell H2]
  | word (RSeq style_re _) _ => let a := fresh in let b := fresh in let H1 := fresh in let H2 := fresh in apply word_seq in H as (a & b & -> & H1 & H2); apply spelt_app; [spell H1|spell H2]
  | word (RSeq lang_re _) _ => let a := fresh in let b := fresh in let H1 := fresh in let H2 := fresh in apply word_seq in H as (a & b & -> & H1 & H2); apply spelt_app; [spell H1|spell H2]
  | word REps _ => apply word_eps in H as ->; constructor
  | word class_re _ => apply (spelt_closed 40 41); [cbn; tauto|exact H]
  | word style_re _ => apply (spelt_closed 123 125); [cbn; tauto|exact H]
  | word lang_re _ => apply (spelt_closed 91 93); [cbn; tauto|exact H]
  end.
Lemma spelt_cls w : word cls_re w -> spelt w.
Proof. intros H. unfold cls_re in H. spell H. Qed.
Lemma spelt_atts w : word tag_atts w -> spelt w.
Proof.
  rewrite atts_split. intros H. apply word_seq in H as (a & b & -> & H1 & H). apply word_seq in H as (c & d & -> & H2 & H3).
  auto using spelt_app, spelt_align, spelt_cls.
Qed.

(** ** Which text it is *)
Section Reach.
Variable rest : str.
Inductive sound : str -> Prop :=
| So_nil : sound []
| So_char c w : ~ In c (u ".{[") -> (c = 40 -> In 41 w \/ ~ In 41 rest) -> sound w -> sound (c :: w)
| So_part o c b w : In (o, c) [(123, 125); (91, 93)] -> ~ In c b -> ~ In 41 b -> sound w -> sound (o :: b ++ c :: w).
Lemma sound_after w : sound w -> forall a b, w = a ++ 41 :: b -> ~ In 41 a -> sound b.
Proof.
  induction 1 as [|c w Hc Hp H IH|o c d w Ho Hd H41 H IH]; intros a b E Ha.
  - destruct a; discriminate.
  - destruct a as [|x a]; injection E as E0 E; [subst; exact H|]. apply (IH a b E). intros F. apply Ha. right. exact F.
  - destruct a as [|x a]; injection E as E1 E; [subst o; cbn in Ho; intuition congruence|].
    assert (exists a', a = d ++ c :: a') as (a' & ->).
    { clear - E H41 Ho. revert a E. induction d as [|y d IH]; intros a E.
      - destruct a as [|z a]; injection E as E1 E; [subst c; cbn in Ho; intuition congruence|]. subst z. exists a. reflexivity.
      - destruct a as [|z a]; injection E as E1 E; [destruct H41; left; auto|]. subst z. destruct (IH (fun F => H41 (or_intror F)) a E) as (a' & ->). exists a'. reflexivity. }
    rewrite <- app_assoc in E. apply app_inv_head in E. cbn [app] in E. injection E as E. apply (IH a' b E). intros F. apply Ha. right. apply in_or_app. right. right. exact F.
Qed.
Lemma cut_first c (a b x y : str) : ~ In c a -> ~ In c x -> a ++ c :: b = x ++ c :: y -> a = x /\ b = y.
Proof.
  revert x. induction a as [|d a IH]; intros x Ha Hx E; destruct x as [|e x]; cbn [app] in E.
  - injection E as E. auto. - exfalso. injection E as E1 E. apply Hx. left. auto. - exfalso. injection E as E1 E. apply Ha. left. auto.
  - injection E as E1 E. subst e. destruct (IH x) as [-> ->]; auto; intros F; [apply Ha|apply Hx]; right; exact F.
Qed.
Lemma reach_same v : spelt v -> forall w rest', sound w -> w ++ 46 :: rest = v ++ 46 :: rest' -> v = w.
Proof.
  induction 1 as [|c v Hc H IH|o c d v Ho Hd H IH]; intros w rest' Hw E.
  - destruct Hw as [|c w Hc _ _|o c d w Ho _ _ _]; [reflexivity|exfalso..].
    + injection E as -> _. apply Hc. in_fixed. + injection E as -> _. cbn in Ho. intuition congruence.
  - destruct Hw as [|c' w Hc' Hp Hw|o c' d w Ho _ _ _].
    + exfalso. injection E as <- _. revert Hc. vm_compute. intuition discriminate.
    + injection E as -> E. f_equal. eapply IH; eauto.
    + exfalso. injection E as <- _. revert Hc Ho. vm_compute. intuition congruence.
  - destruct Hw as [|c' w Hc' Hp Hw|o' c' d' w Ho' Hd' H41 Hw].
    + exfalso. injection E as <- _. cbn in Ho. intuition congruence.
    + injection E as E1 E. subst c'. assert (o = 40 /\ c = 41) as [-> ->].
      { cbn in Ho. destruct Ho as [Ho|[Ho|[Ho|[]]]]; inversion Ho; subst; auto; exfalso; apply Hc'; in_fixed. }
      rewrite <- app_assoc in E. cbn [app] in E.
      assert (In 41 w) as Hin.
      { destruct (Hp eq_refl) as [F|F]; [exact F|]. destruct (List.in_dec N.eq_dec 41 w) as [G|G]; [exact G|]. exfalso.
        assert (In 41 (w ++ 46 :: rest)) as K by (rewrite E; apply in_or_app; right; left; reflexivity). apply in_app_or in K as [K|[K|K]]; [auto|discriminate|auto]. }
      apply ProofGlyphs.first_in in Hin as (a & b & -> & Ha).
      pose proof (sound_after _ Hw a b eq_refl Ha) as Hb. rewrite <- app_assoc in E. cbn [app] in E. apply cut_first in E as [-> E]; auto. do 2 f_equal. f_equal. eapply IH; eauto.
    + injection E as E1 E. subst o'. assert (c' = c) as ->.
      { cbn in Ho, Ho'. destruct Ho as [Ho|[Ho|[Ho|[]]]]; inversion Ho; subst; destruct Ho' as [Ho'|[Ho'|[]]]; inversion Ho'; subst; reflexivity. }
      rewrite <- !app_assoc in E. cbn [app] in E. apply cut_first in E as [-> E]; auto. do 2 f_equal. f_equal. eapply IH; eauto.
Qed.
End Reach.

(** ** The attributes can be matched *)
Definition head_not (c : N) (t : str) : Prop := match t with x :: _ => x <> c | [] => True end.
Lemma mat_c k x before after cs : in_cls k x = true -> Mat (RCls k) (mk_mst before (x :: after) cs) (mk_mst (x :: before) after cs).
Proof. intros H. apply (MCls k (mk_mst before (x :: after) cs) x after eq_refl H). Qed.
Lemma mat_one c before after cs : Mat (RCls (one c)) (mk_mst before (c :: after) cs) (mk_mst (c :: before) after cs).
Proof. apply mat_c. rewrite in_one. apply N.eqb_refl. Qed.
Lemma mat_run k w : forall before after cs, forallb (in_cls k) w = true -> Mat (RStar true (RCls k)) (mk_mst before (w ++ after) cs) (mk_mst (rev w ++ before) after cs).
Proof.
  induction w as [|c w IH]; intros before after cs H; [apply MStar0|]. cbn [forallb] in H. apply andb_prop in H as [H1 H2]. cbn [app rev]. rewrite <- app_assoc. cbn [app].
  eapply MStarS; [apply mat_c; exact H1|apply IH; exact H2].
Qed.
Lemma mat_plus k c w before after cs : forallb (in_cls k) (c :: w) = true -> Mat (RSeq (RCls k) (RStar true (RCls k))) (mk_mst before (c :: w ++ after) cs) (mk_mst (rev w ++ c :: before) after cs).
Proof. intros H. cbn [forallb] in H. apply andb_prop in H as [H1 H2]. eapply MSeq; [apply mat_c; exact H1|apply mat_run; exact H2]. Qed.
Lemma mat_closed o c b before after cs : b <> [] -> forallb (in_cls (until c)) b = true ->
  Mat (closed_re o c) (mk_mst before ((o :: b ++ [c]) ++ after) cs) (mk_mst (rev (o :: b ++ [c]) ++ before) after cs).
Proof.
  intros Hn Hb. destruct b as [|x b]; [congruence|]. cbn [app rev]. rewrite rev_app_distr. cbn [rev app]. rewrite <- !app_assoc. cbn [app].
  eapply MSeq; [apply mat_one|]. eapply MSeq; [|apply mat_one]. apply mat_plus. exact Hb.
Qed.
Lemma mat_not c before after cs : head_not c after -> Mat (RNLook (RCls (one c))) (mk_mst before after cs) (mk_mst before after cs).
Proof.
  intros H. apply MNLook. destruct after as [|x after]; [reflexivity|]. cbn [head_not] in H. rewrite m_cls, in_one. apply N.eqb_neq in H. rewrite H. reflexivity.
Qed.
Lemma mat_not_back c before after cs : head_not c before -> Mat (RNLook (RBack (one c))) (mk_mst before after cs) (mk_mst before after cs).
Proof.
  intros H. apply MNLook. destruct before as [|x before]; [reflexivity|]. cbn [head_not] in H. rewrite m_back, in_one. apply N.eqb_neq in H. rewrite H. reflexivity.
Qed.
Lemma repeat_in c n k : in_cls k c = true -> forallb (in_cls k) (repeat c n) = true.
Proof. intros H. induction n as [|n IH]; [reflexivity|]. cbn [repeat forallb]. rewrite H. exact IH. Qed.
Lemma mat_parens c n before after cs : In c [40; 41] -> (0 < n)%nat -> head_not 32 after ->
  Mat (RAlt halign_re (RCls vmark)) (mk_mst before (repeat c n ++ after) cs) (mk_mst (rev (repeat c n) ++ before) after cs).
Proof.
  intros Hc Hn H. destruct n as [|n]; [lia|]. apply MAltL. unfold halign_re, HALIGN. do 4 apply MAltR.
  assert (in_cls parens c = true) as Hp by (destruct Hc as [<-|[<-|[]]]; reflexivity).
  cbn [repeat rev app]. rewrite <- app_assoc. cbn [app]. eapply MSeq; [apply mat_plus; cbn [forallb]; rewrite Hp; apply (repeat_in c n parens Hp)|apply mat_not; exact H].
Qed.
Lemma mat_mark x before after cs : mark x = true -> (match x with PadLeft n | PadRight n => (0 < n)%nat | _ => True end) ->
  (kind x = 5%nat -> head_not 62 after /\ head_not 60 before) -> head_not 32 after ->
  Mat (RAlt halign_re (RCls vmark)) (mk_mst before (item_text x ++ after) cs) (mk_mst (rev (item_text x) ++ before) after cs).
Proof.
  intros Hm Hn H5 H32. destruct x as [ds k|l|l i|n|n|a|v|n|n| | ]; try discriminate Hm; cbn [item_text].
  - apply mat_parens; auto. cbn; tauto. - apply mat_parens; auto. cbn; tauto.
  - destruct (H5 eq_refl) as [H1 H2]. apply MAltL. unfold halign_re, HALIGN. destruct a; cbn [halign_mark].
    + change (u "<") with [60]. cbn [app rev]. apply MAltL. eapply MSeq; [apply mat_one|apply mat_not; exact H1].
    + change (u ">") with [62]. cbn [app rev]. apply MAltR, MAltL. eapply MSeq; [apply mat_not_back; exact H2|apply mat_one].
    + change (u "=") with [61]. cbn [app rev]. do 3 apply MAltR. apply MAltL. apply mat_one.
    + change (u "<>") with [60; 62]. cbn [app rev]. do 2 apply MAltR. apply MAltL. eapply MSeq; apply mat_one.
  - apply MAltR. destruct v; apply mat_c; reflexivity.
Qed.
Lemma repeat_rev {A} (c : A) n : rev (repeat c n) = repeat c n.
Proof. induction n as [|n IH]; [reflexivity|]. cbn [repeat rev]. rewrite IH. clear IH. induction n as [|n IH]; [reflexivity|]. cbn [repeat app]. rewrite IH. reflexivity. Qed.
(** Marks at both ends. *)
Lemma mark_ends x : mark x = true -> (match x with PadLeft n | PadRight n => (0 < n)%nat | _ => True end) ->
  (exists c w, item_text x = c :: w /\ c <> 32 /\ (kind x <> 5%nat -> c <> 62)) /\ (exists c w, rev (item_text x) = c :: w /\ (kind x <> 5%nat -> c <> 60)).
Proof.
  intros Hm Hn. destruct x as [ds k|l|l i|n|n|a|v|n|n| | ]; try discriminate Hm; cbn [item_text].
  - destruct n as [|n]; [lia|]. rewrite repeat_rev. cbn [repeat]. split; [exists 40, (repeat 40 n)|exists 40, (repeat 40 n)]; repeat split; discriminate.
  - destruct n as [|n]; [lia|]. rewrite repeat_rev. cbn [repeat]. split; [exists 41, (repeat 41 n)|exists 41, (repeat 41 n)]; repeat split; discriminate.
  - destruct a; (split; eexists _, _; (split; [reflexivity|])); repeat split; try discriminate; intros F; cbn in F; congruence.
  - destruct v; (split; eexists _, _; (split; [reflexivity|])); repeat split; discriminate.
Qed.
Lemma rev_case {A} (l : list A) : l = [] \/ exists m x, l = m ++ [x].
Proof. destruct l as [|y l]; [left; reflexivity|right]. destruct (exists_last (l := y :: l)) as (m & x & E); [discriminate|]. eauto. Qed.
Section Take.
Variable restricted : bool.
Let ok := item_ok ElNone restricted.
Lemma ok_pad x : ok x -> match x with PadLeft n | PadRight n => (0 < n)%nat | _ => True end.
Proof. destruct x; intros H; first [exact I|exact H]. Qed.
Lemma mat_marks l : forall before after cs, NoDup (map kind l) -> forallb mark l = true -> (forall x, In x l -> ok x) ->
  (In 5%nat (map kind l) -> head_not 60 before /\ head_not 62 after) -> head_not 32 after ->
  Mat align_re (mk_mst before (items_text l ++ after) cs) (mk_mst (rev (items_text l) ++ before) after cs).
Proof.
  induction l as [|x l IH]; intros before after cs Hd Hm Hok H5 H32; [apply MStar0|]. cbn [forallb] in Hm. apply andb_prop in Hm as [Mx Ml]. cbn [map] in Hd, H5. inversion Hd as [|? ? Nx Dl]; subst.
  pose proof (ok_pad x (Hok x (or_introl eq_refl))) as Hp. destruct (mark_ends x Mx Hp) as [_ (z & r & Er & Hz)].
  assert (head_not 32 (items_text l ++ after) /\ (kind x = 5%nat -> head_not 62 (items_text l ++ after))) as [N1 N2].
  { destruct l as [|y l]; [split; [exact H32|intros F; apply H5; left; exact F]|]. cbn [forallb] in Ml. apply andb_prop in Ml as [My _].
    destruct (mark_ends y My (ok_pad y (Hok y (or_intror (or_introl eq_refl))))) as [(c & w & Ec & Hc & Hc2) _]. cbn [items_text flat_map]. rewrite Ec. cbn [app head_not]. split; [exact Hc|].
    intros F. apply Hc2. intros G. apply Nx. left. congruence. }
  cbn [items_text flat_map]. rewrite rev_app_distr, <- !app_assoc. eapply MStarS.
  - apply mat_mark; auto. intros F. split; [apply N2, F|apply H5; left; exact F].
  - apply IH; auto; [intros y Hy; apply Hok; right; exact Hy|]. intros F. split; [|apply H5; right; exact F]. rewrite Er. cbn [app head_not]. apply Hz. intros G. apply Nx. rewrite G. exact F.
Qed.
Definition re_of (k : nat) : re := match k with 0 => style_re | 1 => lang_re | _ => class_re end%nat.
Definition spec (x : item) : Prop := item_ok ElNone restricted x /\ sig_item restricted x.
Lemma chars_in (P : N -> bool) cs t : forallb P cs = true -> in_chars cs t = true -> forallb P t = true.
Proof.
  intros HP H. unfold in_chars in H. rewrite forallb_forall in H |- *. intros c Hc. specialize (H c Hc). apply existsb_exists in H as (d & Hd & E). apply N.eqb_eq in E as ->. rewrite forallb_forall in HP. auto.
Qed.
Lemma in_chars_app cs a b : in_chars cs (a ++ b) = in_chars cs a && in_chars cs b.
Proof. apply forallb_app. Qed.
Lemma in_chars_more cs ds t : forallb (fun c => existsb (N.eqb c) ds) cs = true -> in_chars cs t = true -> in_chars ds t = true.
Proof. apply chars_in. Qed.
Lemma in_chars_join cs ds : in_chars cs (u ";") = true -> (forall d, In d ds -> in_chars cs d = true) -> in_chars cs (join (u ";") ds) = true.
Proof.
  intros Hs. induction ds as [|d ds IH]; intros H; [reflexivity|]. destruct ds as [|e ds]; [apply H; left; auto|]. change (join (u ";") (d :: e :: ds)) with (d ++ u ";" ++ join (u ";") (e :: ds)).
  rewrite !in_chars_app, Hs. rewrite (H d (or_introl eq_refl)), IH by (intros x Hx; apply H; right; exact Hx). reflexivity.
Qed.
Lemma in_chars_repeat cs c n : in_chars cs [c] = true -> in_chars cs (repeat c n) = true.
Proof. intros H. induction n as [|n IH]; [reflexivity|]. change (repeat c (S n)) with ([c] ++ repeat c n). rewrite in_chars_app, H, IH. reflexivity. Qed.
(** What stands between the brackets. *)
Definition body (x : item) : str :=
  match x with
  | Style ds k => join (u ";") ds ++ repeat 59 k
  | Lang l => l
  | ClassId c i => c ++ match i with Some i => u "#" ++ i | None => [] end
  | _ => []
  end.
Definition body_chars : str := style_chars ++ u ";".
Definition brackets (x : item) : N * N := match x with Style _ _ => (123, 125) | Lang _ => (91, 93) | _ => (40, 41) end.
Lemma described_text x : described x = true -> item_text x = fst (brackets x) :: body x ++ [snd (brackets x)].
Proof. destruct x; try discriminate; intros _; cbn [item_text brackets fst snd body]; rewrite <- ?app_assoc; reflexivity. Qed.
Lemma described_body x : described x = true -> spec x -> body x <> [] /\ in_chars body_chars (body x) = true /\ (kind x = 2%nat -> ~ In 46 (body x)).
Proof.
  intros Hd [Ho Hs]. destruct x as [ds k|l|l i|n|n|a|v|n|n| | ]; try discriminate Hd; cbn [body item_ok sig_item kind] in *.
  - destruct Ho as (_ & (l & d & E & Hd') & _). split; [|split; [|discriminate]].
    + intros F. apply app_eq_nil in F as [F _]. subst ds. clear - F Hd'. assert (join (u ";") (l ++ [d]) <> []) as N; [|exact (N F)].
      induction l as [|x l IH]; [exact Hd'|]. destruct l as [|y l]; (intros G; apply app_eq_nil in G as [_ G]; discriminate).
    + rewrite in_chars_app. apply andb_true_intro. split; [apply in_chars_join; [reflexivity|]|apply in_chars_repeat; reflexivity]. intros x Hx. eapply in_chars_more; [|apply Hs, Hx]. vm_compute. reflexivity.
  - split; [apply Ho|]. split; [|discriminate]. eapply in_chars_more; [|exact Hs]. vm_compute. reflexivity.
  - destruct Hs as [S1 S2]. split; [|split].
    + destruct Ho as ([H|H] & _); [intros F; apply app_eq_nil in F as [F _]; auto|]. destruct i; [|congruence]. intros F. apply app_eq_nil in F as [_ F]. discriminate.
    + rewrite in_chars_app. apply andb_true_intro. split; [eapply in_chars_more; [|exact S1]; vm_compute; reflexivity|]. destruct i as [i|]; [|reflexivity]. rewrite in_chars_app. apply andb_true_intro. split; [reflexivity|].
      eapply in_chars_more; [|apply S2; reflexivity]. vm_compute. reflexivity.
    + intros _ F. apply in_app_or in F as [F|F].
      * pose proof (chars_in (fun c => negb (c =? 46)) (name_chars ++ u " ") l eq_refl S1) as P. rewrite forallb_forall in P. apply P in F. discriminate.
      * destruct i as [i|]; [|destruct F]. apply in_app_or in F as [F|F]; [vm_compute in F; intuition discriminate|]. pose proof (chars_in (fun c => negb (c =? 46)) (name_chars ++ u ":") i eq_refl (S2 i eq_refl)) as P. rewrite forallb_forall in P. apply P in F. discriminate.
Qed.
Lemma mat_described x before after cs : described x = true -> spec x -> Mat (re_of (kind x)) (mk_mst before (item_text x ++ after) cs) (mk_mst (rev (item_text x) ++ before) after cs).
Proof.
  intros Hd Hs. destruct (described_body x Hd Hs) as (B1 & B2 & _). rewrite described_text by exact Hd.
  assert (re_of (kind x) = closed_re (fst (brackets x)) (snd (brackets x))) as -> by (destruct x; try discriminate Hd; reflexivity).
  apply mat_closed; [exact B1|]. apply (chars_in _ body_chars); [|exact B2]. destruct x; try discriminate Hd; vm_compute; reflexivity.
Qed.
Lemma described_kind x : described x = true -> kind x = 0%nat \/ kind x = 1%nat \/ kind x = 2%nat.
Proof. destruct x; try discriminate; cbn; auto. Qed.
Lemma mat_cls_all d before after cs : NoDup (map kind d) -> forallb described d = true -> (forall x, In x d -> spec x) ->
  Mat cls_re (mk_mst before (items_text d ++ after) cs) (mk_mst (rev (items_text d) ++ before) after cs).
Proof.
  intros Hn Hd Hs. assert (forall x, In x d -> described x = true) as Hd' by (rewrite forallb_forall in Hd; exact Hd). clear Hd.
  assert (forall x, In x d -> forall k before after, kind x = k -> Mat (re_of k) (mk_mst before (item_text x ++ after) cs) (mk_mst (rev (item_text x) ++ before) after cs)) as M by (intros x Hx k b a <-; apply mat_described; auto).
  assert (forall x, In x d -> kind x = 0%nat \/ kind x = 1%nat \/ kind x = 2%nat) as K by (intros x Hx; apply described_kind; auto). clear Hs Hd'.
  unfold cls_re, opt. destruct d as [|x [|y [|z [|t d]]]]; cbn [items_text flat_map map] in *; rewrite ?app_nil_r; rewrite ?rev_app_distr, <- ?app_assoc.
  - apply MAltR, MEps.
  - apply MAltL. destruct (K x) as [E|[E|E]]; [left; auto|..]; pose proof (M x (or_introl eq_refl) _ before after E) as Mx; cbn [re_of] in Mx.
    + apply MAltR, MAltR. eapply MSeq; [exact Mx|apply MAltR, MEps].
    + apply MAltR, MAltL. eapply MSeq; [exact Mx|apply MAltR, MEps].
    + apply MAltL. eapply MSeq; [exact Mx|apply MAltR, MEps].
  - apply MAltL. inversion Hn as [|? ? N1 N2]; subst. cbn [In] in N1.
    destruct (K x) as [E|[E|E]]; [cbn; auto|..]; (destruct (K y) as [F|[F|F]]; [cbn; auto|..]); rewrite E, F in N1; try (exfalso; apply N1; left; reflexivity);
    pose proof (fun b a => M x (or_introl eq_refl) _ b a E) as Mx; pose proof (fun b a => M y (or_intror (or_introl eq_refl)) _ b a F) as My; cbn [re_of] in Mx, My.
    + apply MAltR, MAltR. eapply MSeq; [apply Mx|apply MAltL, MAltR]. eapply MSeq; [apply My|apply MAltR, MEps].
    + apply MAltR, MAltR. eapply MSeq; [apply Mx|apply MAltL, MAltL]. eapply MSeq; [apply My|apply MAltR, MEps].
    + apply MAltR, MAltL. eapply MSeq; [apply Mx|apply MAltL, MAltR]. eapply MSeq; [apply My|apply MAltR, MEps].
    + apply MAltR, MAltL. eapply MSeq; [apply Mx|apply MAltL, MAltL]. eapply MSeq; [apply My|apply MAltR, MEps].
    + apply MAltL. eapply MSeq; [apply Mx|apply MAltL, MAltR]. eapply MSeq; [apply My|apply MAltR, MEps].
    + apply MAltL. eapply MSeq; [apply Mx|apply MAltL, MAltL]. eapply MSeq; [apply My|apply MAltR, MEps].
  - apply MAltL. inversion Hn as [|? ? N1 N2]; subst. inversion N2 as [|? ? N3 _]; subst. cbn [In] in N1, N3.
    destruct (K x) as [E|[E|E]]; [cbn; auto|..]; (destruct (K y) as [F|[F|F]]; [cbn; auto|..]); (destruct (K z) as [G|[G|G]]; [cbn; auto|..]); rewrite E, F, G in N1; rewrite F, G in N3; try (exfalso; intuition congruence);
    pose proof (fun b a => M x (or_introl eq_refl) _ b a E) as Mx; pose proof (fun b a => M y (or_intror (or_introl eq_refl)) _ b a F) as My; pose proof (fun b a => M z (or_intror (or_intror (or_introl eq_refl))) _ b a G) as Mz; cbn [re_of] in Mx, My, Mz.
    + apply MAltR, MAltR. eapply MSeq; [apply Mx|apply MAltL, MAltR]. eapply MSeq; [apply My|apply MAltL; apply Mz].
    + apply MAltR, MAltR. eapply MSeq; [apply Mx|apply MAltL, MAltL]. eapply MSeq; [apply My|apply MAltL; apply Mz].
    + apply MAltR, MAltL. eapply MSeq; [apply Mx|apply MAltL, MAltR]. eapply MSeq; [apply My|apply MAltL; apply Mz].
    + apply MAltR, MAltL. eapply MSeq; [apply Mx|apply MAltL, MAltL]. eapply MSeq; [apply My|apply MAltL; apply Mz].
    + apply MAltL. eapply MSeq; [apply Mx|apply MAltL, MAltR]. eapply MSeq; [apply My|apply MAltL; apply Mz].
    + apply MAltL. eapply MSeq; [apply Mx|apply MAltL, MAltL]. eapply MSeq; [apply My|apply MAltL; apply Mz].
  - exfalso. inversion Hn as [|? ? N1 N2]; subst. inversion N2 as [|? ? N3 N4]; subst. inversion N4 as [|? ? N5 _]; subst. cbn [In] in N1, N3, N5.
    destruct (K x) as [E|[E|E]]; [cbn; auto|..]; (destruct (K y) as [F|[F|F]]; [cbn; auto|..]); (destruct (K z) as [G|[G|G]]; [cbn; auto|..]); (destruct (K t) as [H|[H|H]]; [cbn; auto|..]); rewrite ?E, ?F, ?G, ?H in N1, N3, N5; intuition congruence.
Qed.
Lemma mat_atts l before rest cs : items_ok ElNone restricted l -> in_place l -> (forall x, In x l -> sig_item restricted x) -> head_not 60 before ->
  Mat tag_atts (mk_mst before (items_text l ++ 46 :: rest) cs) (mk_mst (rev (items_text l) ++ before) (46 :: rest) cs).
Proof.
  intros (Hn & Hok & _) (a & d & b & -> & Ha & Hd & Hb) Hs H60. rewrite !map_app in Hn. rewrite atts_split.
  assert (NoDup (map kind a) /\ NoDup (map kind d) /\ NoDup (map kind b)) as (Na & Nd & Nb).
  { split; [eapply NoDup_app_remove_r; exact Hn|]. apply NoDup_app_remove_l in Hn. split; [eapply NoDup_app_remove_r; exact Hn|eapply NoDup_app_remove_l; exact Hn]. }
  assert (In 5%nat (map kind b) -> ~ In 5%nat (map kind a)) as Nab.
  { intros F G. clear - Hn F G. induction (map kind a) as [|x m IH]; [destruct G|]. cbn [app] in Hn. inversion Hn as [|? ? N1 N2]; subst. destruct G as [->|G]; [|auto]. apply N1. apply in_or_app. right. apply in_or_app. right. exact F. }
  assert (forall m, items_text (m ++ b) = items_text m ++ items_text b) as App by (intros m; apply flat_map_app). unfold items_text in *. rewrite !flat_map_app in *. rewrite !rev_app_distr, <- !app_assoc. fold (items_text a) (items_text d) (items_text b) in *.
  assert (forall x, In x d -> described x = true) as Dd by (rewrite forallb_forall in Hd; exact Hd).
  assert (forall c, In c [32; 62] -> (c = 62 -> In 5%nat (map kind a)) -> head_not c (items_text d ++ items_text b ++ 46 :: rest)) as Nx.
  { intros c Hc H5. destruct d as [|x d].
    - cbn [items_text flat_map app]. destruct b as [|y b]; [cbn; destruct Hc as [<-|[<-|[]]]; discriminate|]. cbn [forallb] in Hb. apply andb_prop in Hb as [My _].
      destruct (mark_ends y My) as [(e & w & Ee & He & He2) _]; [apply ok_pad, Hok; apply in_or_app; right; left; reflexivity|]. cbn [items_text flat_map]. rewrite Ee. cbn [app head_not].
      destruct Hc as [<-|[<-|[]]]; [exact He|]. apply He2. intros F. apply Nab; [left; exact F|auto].
    - cbn [items_text flat_map]. rewrite described_text by (apply Dd; left; reflexivity). cbn [app head_not]. destruct x; try (specialize (Dd _ (or_introl eq_refl)); discriminate); cbn [brackets fst]; destruct Hc as [<-|[<-|[]]]; discriminate. }
  eapply MSeq; [apply mat_marks; auto|].
  - intros x Hx. apply Hok, in_or_app. left. exact Hx.
  - intros F. split; [exact H60|apply Nx; cbn; auto].
  - apply Nx; [cbn; auto|discriminate].
  - eapply MSeq; [apply mat_cls_all; auto|].
    + intros x Hx. split; [apply Hok|apply Hs]; apply in_or_app; right; apply in_or_app; left; exact Hx.
    + apply mat_marks; auto; [intros x Hx; apply Hok, in_or_app; right; apply in_or_app; right; exact Hx| |discriminate]. intros F. split; [|discriminate].
      destruct (rev_case d) as [->|(d' & x & ->)].
      * cbn [items_text flat_map rev app]. destruct (rev_case a) as [->|(a' & x & ->)]; [exact H60|]. unfold items_text. rewrite flat_map_app. cbn [flat_map]. rewrite app_nil_r, rev_app_distr, <- app_assoc.
        rewrite forallb_app in Ha. apply andb_prop in Ha as [_ Ha]. cbn [forallb] in Ha. apply andb_prop in Ha as [Mx _].
        destruct (mark_ends x Mx) as [_ (e & w & Ee & He)]; [apply ok_pad, Hok; apply in_or_app; left; apply in_or_app; right; left; reflexivity|]. rewrite Ee. cbn [app head_not]. apply He. intros G. apply (Nab F). rewrite map_app. apply in_or_app. right. left. exact G.
      * unfold items_text. rewrite flat_map_app. cbn [flat_map]. rewrite app_nil_r, described_text by (apply Dd, in_or_app; right; left; reflexivity). rewrite !rev_app_distr. cbn [rev]. rewrite !rev_app_distr. cbn [rev app head_not].
        destruct x; cbn [brackets snd]; discriminate.
Qed.
End Take.

(** ** They are matched whole *)
Section Whole.
Variables (restricted : bool) (rest : str).
Lemma sound_chars v w : (forall c, In c v -> ~ In c (u ".{[(")) -> sound rest w -> sound rest (v ++ w).
Proof.
  intros Hv Hw. induction v as [|c v IH]; [exact Hw|]. cbn [app]. apply So_char.
  - intros F. apply (Hv c (or_introl eq_refl)). vm_compute in F. vm_compute. tauto.
  - intros ->. exfalso. apply (Hv 40 (or_introl eq_refl)). vm_compute. tauto.
  - apply IH. intros d Hd. apply Hv. right. exact Hd.
Qed.
Lemma sound_item x w : spec restricted x -> mark x = true \/ described x = true -> (forall n, x = PadLeft n -> In 41 w \/ ~ In 41 rest) -> sound rest w -> sound rest (item_text x ++ w).
Proof.
  intros Hs Hk Hp Hw. destruct (described x) eqn:Hd.
  - destruct (described_body restricted x Hd Hs) as (_ & B & B46). rewrite described_text by exact Hd. cbn [app]. rewrite <- app_assoc. cbn [app].
    assert (forall c, forallb (fun x => negb (x =? c)) body_chars = true -> ~ In c (body x)) as Q.
    { intros c Hc F. pose proof (chars_in (fun x => negb (x =? c)) _ _ Hc B) as P. rewrite forallb_forall in P. apply P in F. rewrite N.eqb_refl in F. discriminate. }
    destruct x as [ds k|l|l i|n|n|a|v|n|n| | ]; try discriminate Hd; cbn [brackets fst snd].
    + apply So_part; [cbn; tauto|apply Q; vm_compute; reflexivity|apply Q; vm_compute; reflexivity|exact Hw].
    + apply So_part; [cbn; tauto|apply Q; vm_compute; reflexivity|apply Q; vm_compute; reflexivity|exact Hw].
    + apply So_char; [vm_compute; intuition discriminate|intros _; left; apply in_or_app; right; left; reflexivity|]. apply sound_chars.
      * intros c Hc F. change (u ".{[(") with [46; 123; 91; 40] in F. destruct F as [F|F]; [subst c; exact (B46 eq_refl Hc)|]. revert Hc. apply Q. cbn [In] in F. repeat (destruct F as [<-|F]; [vm_compute; reflexivity|]). destruct F.
      * apply So_char; [vm_compute; intuition discriminate|discriminate|exact Hw].
  - destruct Hk as [Hm|Hk]; [|discriminate]. destruct x as [ds k|l|l i|n|n|a|v|n|n| | ]; try discriminate Hm; cbn [item_text].
    + induction n as [|n IH]; [exact Hw|]. cbn [repeat app]. apply So_char; [vm_compute; intuition discriminate| |].
      * intros _. destruct (Hp (S n) eq_refl) as [F|F]; [left; apply in_or_app; right; exact F|right; exact F].
      * destruct n as [|n]; [exact Hw|]. apply IH; auto; [split; [cbn; lia|exact I]|]. intros m _. apply (Hp (S (S n))). reflexivity.
    + apply sound_chars; [|exact Hw]. intros c Hc. apply repeat_spec in Hc as ->. vm_compute. intuition discriminate.
    + apply sound_chars; [|exact Hw]. intros c Hc. destruct a; vm_compute in Hc; repeat (destruct Hc as [<-|Hc]; [vm_compute; intuition discriminate|]); destruct Hc.
    + apply sound_chars; [|exact Hw]. intros c Hc. destruct v; vm_compute in Hc; repeat (destruct Hc as [<-|Hc]; [vm_compute; intuition discriminate|]); destruct Hc.
Qed.
Lemma sound_items l : (forall x, In x l -> spec restricted x /\ (mark x = true \/ described x = true)) -> closed l rest -> sound rest (items_text l).
Proof.
  intros Hl Hc. induction l as [|x l IH]; [constructor|]. cbn [items_text flat_map]. destruct (Hl x (or_introl eq_refl)) as [H1 H2]. apply sound_item; auto.
  - intros n ->. destruct Hc as [Hc|Hc]; [left|right; exact Hc]. destruct (Hc [] n l eq_refl) as (y & Hy & Hi). apply in_flat_map. eauto.
  - apply IH; [intros y Hy; apply Hl; right; exact Hy|]. destruct Hc as [Hc|Hc]; [left|right; exact Hc]. intros a n b E. apply (Hc (x :: a) n b). rewrite E. reflexivity.
Qed.
Lemma place_kinds l x : in_place l -> In x l -> mark x = true \/ described x = true.
Proof.
  intros (a & d & b & -> & Ha & Hd & Hb) Hx. rewrite forallb_forall in Ha, Hd, Hb. apply in_app_or in Hx as [Hx|Hx]; [auto|]. apply in_app_or in Hx as [Hx|Hx]; auto.
Qed.
Lemma atts_wf : wf_re tag_atts = true /\ no_group tag_atts = true.
Proof. split; vm_compute; reflexivity. Qed.
Lemma atts_take l before cs k y : items_ok ElNone restricted l -> in_place l -> (forall x, In x l -> sig_item restricted x) -> closed l rest -> head_not 60 before ->
  (forall s z, k s = Some z -> exists r, m_after s = 46 :: r) ->
  k (mk_mst (rev (items_text l) ++ before) (46 :: rest) cs) = Some y -> m tag_atts (mk_mst before (items_text l ++ 46 :: rest) cs) k = Some y.
Proof.
  intros Hi Hp Hs Hc H60 Hk Hy. destruct atts_wf as [Wf Ng]. pose proof (mat_atts restricted l before rest cs Hi Hp Hs H60) as M.
  destruct (m tag_atts (mk_mst before (items_text l ++ 46 :: rest) cs) k) as [z|] eqn:E.
  - apply m_sound in E as (s & Ms & Ks). destruct (Hk s z Ks) as (r & Er). pose proof (mat_no_group _ _ _ Ms Ng) as Ec. apply Mat_word in Ms as (w & [V1 V2] & Hw). cbn [m_before m_after m_caps] in *.
    apply spelt_atts in Hw. assert (sound rest (items_text l)) as So by (apply sound_items; [intros x Hx; split; [split; [apply Hi, Hx|apply Hs, Hx]|eapply place_kinds; eauto]|exact Hc]).
    rewrite Er in V1. assert (w = items_text l) as -> by (eapply reach_same; eauto). apply app_inv_head in V1. injection V1 as <-. 
    destruct s as [sb sa sc]. cbn [m_before m_after m_caps] in *. subst sb sa sc. congruence.
  - exfalso. revert E. eapply m_complete; [exact Wf|exact M|]. rewrite Hy. discriminate.
Qed.
End Whole.
