(** The attributes of a signature: how they are written. *)
From Verif Require Import Str Unicode Regex RegexParse RegexSnips RegexTheory RegexGroups Lib ModelBase ModelHtml ModelAttrs
  SpecRegex ProofRegex ProofCharref ProofParse SpecNewlines ProofNewlines ProofParas ProofSpanRe ProofTags ProofLinks ProofSections SpecPlain SpecDoc ProofDocument SpecAtts ProofItems ProofItemsStages ProofItemsClass ProofItemsTop SpecSigned ProofSigAtts.
#[local] Arguments u : simpl never.

Definition inside_of (v w : str) : Prop := exists a b, w = a ++ v ++ b.
Lemma inside_trans x y z : inside_of x y -> inside_of y z -> inside_of x z.
Proof. intros (a & b & ->) (c & d & ->). exists (c ++ a), (b ++ d). rewrite <- !app_assoc. reflexivity. Qed.
Lemma trim_inside t : inside_of (trim t) t.
Proof.
  unfold trim, trim_by. destruct (trim_start_by_split is_ws t) as (a & Ea & _). destruct (trim_end_by_split is_ws (trim_start_by is_ws t)) as (b & Eb & _).
  exists a, b. rewrite <- Eb. exact Ea.
Qed.
Lemma inside_chars cs v w : inside_of v w -> in_chars cs w = true -> in_chars cs v = true.
Proof. intros (a & b & ->) H. rewrite !in_chars_app in H. apply andb_prop in H as [_ H]. apply andb_prop in H as [H _]. exact H. Qed.
Lemma item_inside x l : In x l -> inside_of (item_text x) (items_text l).
Proof. intros H. apply in_split in H as (a & b & ->). exists (items_text a), (items_text b). unfold items_text. rewrite flat_map_app. reflexivity. Qed.
Lemma join_inside s d ds : In d ds -> inside_of d (join s ds).
Proof.
  induction ds as [|e ds IH]; intros H; [destruct H|]. destruct ds as [|f ds].
  - destruct H as [->|[]]. exists [], []. rewrite app_nil_r. reflexivity.
  - change (join s (e :: f :: ds)) with (e ++ s ++ join s (f :: ds)). destruct H as [->|H]; [exists []; eexists; reflexivity|]. destruct (IH H) as (a & b & E). exists (e ++ s ++ a), b. rewrite E, <- !app_assoc. reflexivity.
Qed.
Lemma pick_in {A} (f : item -> option A) l v : pick f l = Some v -> exists x, In x l /\ f x = Some v.
Proof.
  induction l as [|x l IH]; intros H; [discriminate|]. cbn [pick] in H. destruct (f x) eqn:E; [injection H as <-; exists x; split; [left; auto|auto]|]. destruct (IH H) as (y & Hy & Ey). exists y. split; [right|]; auto.
Qed.
Definition fixed_chars : str := u "abcdefghijklmnopqrstuvwxyz-:0123456789".
Lemma dec_fixed n : in_chars fixed_chars (dec n) = true.
Proof.
  destruct (dec_spec n) as (_ & H & _). unfold in_chars. rewrite forallb_forall in H |- *. intros c Hc. specialize (H c Hc). unfold is_digit_ascii in H. apply andb_prop in H as [H1 H2]. apply N.leb_le in H1, H2.
  assert (In c (u "0123456789")) as D. { assert (c = 48 \/ c = 49 \/ c = 50 \/ c = 51 \/ c = 52 \/ c = 53 \/ c = 54 \/ c = 55 \/ c = 56 \/ c = 57) as E by lia. vm_compute. intuition. }
  apply existsb_exists. exists c. split; [unfold fixed_chars; change (u "abcdefghijklmnopqrstuvwxyz-:0123456789") with (u "abcdefghijklmnopqrstuvwxyz-:" ++ u "0123456789"); apply in_or_app; right; exact D|apply N.eqb_refl].
Qed.
Lemma some_inj {A} (a b : A) : Some a = Some b -> a = b. Proof. congruence. Qed.
Section Sheet.
Variable restricted : bool.
Lemma declaration_is l d : (forall x, In x l -> spec restricted x) -> In d (declarations ElNone restricted l) ->
  (in_chars style_chars d = true /\ (exists x, In x l /\ inside_of d (item_text x))) \/ in_chars fixed_chars d = true.
Proof.
  intros Hs Hd. unfold declarations in Hd. cbn [cell_or_row app] in Hd. rewrite !in_app_iff in Hd.
  assert (forall o : option (list str), In d (or_nil o) -> exists v, o = Some v /\ In d v) as Q by (intros [v|] H; [eauto|destruct H]).
  destruct Hd as [Hd|[Hd|[Hd|Hd]]].
  - destruct restricted; [destruct Hd|]. apply Q in Hd as (v & Hv & Hd). apply pick_in in Hv as (x & Hx & Ev). destruct x as [ds k| | | | | | | | | | ]; try discriminate. injection Ev as <-. apply in_map_iff in Hd as (e & <- & He). left.
    destruct (Hs _ Hx) as [_ H2]. cbn [sig_item] in H2. split; [eapply inside_chars; [apply trim_inside|apply H2, He]|].
    eexists; split; [exact Hx|]. eapply inside_trans; [apply trim_inside|]. eapply inside_trans; [apply (join_inside (u ";") e ds He)|]. cbn [item_text]. eexists (u "{"), (repeat 59 k ++ u "}"). reflexivity.
  - apply Q in Hd as (v & Hv & Hd). apply pick_in in Hv as (x & Hx & Ev). destruct x; try discriminate. apply some_inj in Ev. rewrite <- Ev in Hd. destruct Hd as [<-|[]]. right. rewrite !in_chars_app, dec_fixed. reflexivity.
  - apply Q in Hd as (v & Hv & Hd). apply pick_in in Hv as (x & Hx & Ev). destruct x; try discriminate. apply some_inj in Ev. rewrite <- Ev in Hd. destruct Hd as [<-|[]]. right. rewrite !in_chars_app, dec_fixed. reflexivity.
  - apply Q in Hd as (v & Hv & Hd). apply pick_in in Hv as (x & Hx & Ev). destruct x; try discriminate. apply some_inj in Ev. rewrite <- Ev in Hd. destruct Hd as [<-|[]]. right. destruct a; vm_compute; reflexivity.
Qed.
Definition attr_names : list str := [u "class"; u "id"; u "lang"; u "style"].
Lemma meant_is l n v : (forall x, In x l -> spec restricted x) -> In (n, v) (meant ElNone true restricted l) ->
  In n attr_names /\ ((in_chars body_chars v = true /\ (exists x, In x l /\ inside_of v (item_text x))) \/ v = join (u "; ") (declarations ElNone restricted l) ++ u ";").
Proof.
  intros Hs H. unfold meant in H. cbn [cell attribute app] in H. rewrite !in_app_iff in H.
  assert (forall name o, In (n, v) (attribute name o) -> n = u name /\ o = Some v) as Q by (intros name [w|] F; [destruct F as [F|[]]; injection F as <- <-; auto|destruct F]).
  destruct H as [H|[H|[H|H]]]; apply Q in H as [-> H].
  - split; [left; reflexivity|]. left. destruct restricted eqn:Er; [discriminate|]. apply pick_in in H as (x & Hx & Ex). destruct x as [ | |c i| | | | | | | | ]; try discriminate. destruct c as [|c0 c]; [discriminate|]. injection Ex as <-.
    destruct (Hs _ Hx) as [_ [S1 _]]. split; [eapply in_chars_more; [|exact S1]; vm_compute; reflexivity|]. eexists; split; [exact Hx|]. cbn [item_text]. eexists (u "("), _. reflexivity.
  - split; [right; left; reflexivity|]. left. destruct restricted eqn:Er; [discriminate|]. cbn [orb negb] in H. apply pick_in in H as (x & Hx & Ex). destruct x as [ | |c i| | | | | | | | ]; try discriminate. subst i.
    destruct (Hs _ Hx) as [_ [_ S2]]. split; [eapply in_chars_more; [|apply S2; reflexivity]; vm_compute; reflexivity|]. eexists; split; [exact Hx|]. cbn [item_text]. exists (u "(" ++ c ++ u "#"), (u ")"). rewrite <- !app_assoc. reflexivity.
  - split; [do 2 right; left; reflexivity|]. left. apply pick_in in H as (x & Hx & Ex). destruct x; try discriminate. injection Ex as <-. destruct (Hs _ Hx) as [_ S1]. cbn [sig_item] in S1.
    split; [eapply in_chars_more; [|exact S1]; vm_compute; reflexivity|]. eexists; split; [exact Hx|]. cbn [item_text]. exists (u "["), (u "]"). reflexivity.
  - split; [do 3 right; left; reflexivity|]. right. destruct (declarations ElNone restricted l) as [|d ds]; [discriminate|]. injection H as <-. reflexivity.
Qed.
Lemma join_chars cs s ds : in_chars cs s = true -> (forall d, In d ds -> in_chars cs d = true) -> in_chars cs (join s ds) = true.
Proof.
  intros Hs. induction ds as [|d ds IH]; intros H; [reflexivity|]. destruct ds as [|e ds]; [apply H; left; auto|]. change (join s (d :: e :: ds)) with (d ++ s ++ join s (e :: ds)).
  rewrite !in_chars_app, Hs. rewrite (H d (or_introl eq_refl)), IH by (intros x Hx; apply H; right; exact Hx). reflexivity.
Qed.
Lemma meant_chars l n v : (forall x, In x l -> spec restricted x) -> In (n, v) (meant ElNone true restricted l) -> in_chars body_chars v = true.
Proof.
  intros Hs H. destruct (meant_is l n v Hs H) as [_ [[H1 _]| ->]]; [exact H1|]. rewrite in_chars_app. apply andb_true_intro. split; [|reflexivity]. apply join_chars; [reflexivity|].
  intros d Hd. destruct (declaration_is l d Hs Hd) as [[H1 _]|H1]; (eapply in_chars_more; [|exact H1]; vm_compute; reflexivity).
Qed.
Lemma quote_plain v : in_chars body_chars v = true -> quoteattr v = u """" ++ v ++ u """".
Proof.
  intros H. unfold quoteattr. assert (encode_html v false true = v) as ->.
  { unfold encode_html. assert (forall c, In c v -> encode_char false true c = [c]) as P.
    { intros c Hc. assert (forallb (fun c => match encode_char false true c with [d] => c =? d | _ => false end) body_chars = true) as P by (vm_compute; reflexivity).
      pose proof (chars_in _ _ _ P H) as Q. rewrite forallb_forall in Q. specialize (Q c Hc). destruct (encode_char false true c) as [|d [|]]; try discriminate. apply N.eqb_eq in Q as ->. reflexivity. }
    clear H. induction v as [|c v IH]; [reflexivity|]. cbn [flat_map]. rewrite P by (left; auto). rewrite IH by (intros; apply P; right; auto). reflexivity. }
  assert (contains_char 34 v = false) as ->; [|reflexivity]. destruct (contains_char 34 v) eqn:E; auto. exfalso. unfold contains_char in E. apply existsb_exists in E as (x & Hx & Ex). apply N.eqb_eq in Ex. subst.
  pose proof (chars_in (fun c => negb (c =? 34)) body_chars v eq_refl H) as Q. rewrite forallb_forall in Q. apply Q in Hx. discriminate.
Qed.
Lemma attributes_written l : (forall x, In x l -> spec restricted x) -> attrs_to_string (meant ElNone true restricted l) = attributes restricted l.
Proof.
  intros Hs. unfold attrs_to_string, attributes. pose proof (fun n v => meant_chars l n v Hs) as Q. induction (meant ElNone true restricted l) as [|[n v] m IH]; [reflexivity|]. cbn [flat_map]. rewrite IH by (intros; eapply Q; right; eauto).
  unfold attr_str. cbn [fst snd]. rewrite (quote_plain v) by (eapply Q; left; reflexivity). rewrite <- !app_assoc. reflexivity.
Qed.
Lemma attributes_chars l : (forall x, In x l -> spec restricted x) -> in_chars (body_chars ++ u "=""") (attributes restricted l) = true.
Proof.
  intros Hs. unfold attributes. assert (forall a, In a (meant ElNone true restricted l) -> in_chars body_chars (fst a) = true /\ in_chars body_chars (snd a) = true) as Q.
  { intros [n v] H. split; [|exact (meant_chars l n v Hs H)]. destruct (meant_is l n v Hs H) as [H1 _]. cbn [In attr_names fst] in *. repeat (destruct H1 as [<-|H1]; [vm_compute; reflexivity|]). destruct H1. }
  assert (forall t, in_chars body_chars t = true -> in_chars (body_chars ++ u "=""") t = true) as M by (intros t; apply in_chars_more; vm_compute; reflexivity).
  induction (meant ElNone true restricted l) as [|a m IH]; [reflexivity|]. cbn [flat_map]. destruct (Q a (or_introl eq_refl)) as [Q1 Q2]. rewrite !in_chars_app. rewrite IH by (intros; apply Q; right; auto).
  repeat (apply andb_true_intro; split); try exact (M _ Q1); try exact (M _ Q2); vm_compute; reflexivity.
Qed.
Lemma attributes_without l c : (forall x, In x l -> spec restricted x) -> forallb (fun x => negb (x =? c)) (body_chars ++ u "=""") = true -> ~ In c (attributes restricted l).
Proof. intros Hs Hc F. pose proof (chars_in _ _ _ Hc (attributes_chars l Hs)) as Q. rewrite forallb_forall in Q. apply Q in F. rewrite N.eqb_refl in F. discriminate. Qed.
Lemma attributes_head l : attributes restricted l = [] \/ exists w, attributes restricted l = 32 :: w.
Proof. unfold attributes. destruct (meant ElNone true restricted l) as [|a m]; [left; reflexivity|right]. eexists. reflexivity. Qed.
(** They do not contain the mark of placeholders. *)
Lemma contains_inside p v w : inside_of v w -> contains p w = false -> contains p v = false.
Proof. intros (a & b & ->) H. apply contains_sub in H as [_ H]. apply contains_sub in H as [H _]. exact H. Qed.
Lemma uid_82 uid w : simple_uid uid -> ~ In 82 w -> contains uid w = false.
Proof.
  intros (id & -> & _) H. destruct (contains (u "textileRef:" ++ id ++ u ":") w) eqn:E; auto. exfalso. apply contains_split in E as (a & b & ->). apply H. apply in_or_app. right. apply in_or_app. left. apply in_or_app. left. vm_compute. tauto.
Qed.
Lemma uid_cutting uid d a b : simple_uid uid -> forallb (fun x => negb (x =? d)) uid_all = true -> contains uid (a ++ d :: b) = contains uid a || contains uid b.
Proof. intros H Hd. apply contains_cut; [apply uid_without; auto|apply uid_ne; auto]. Qed.
Lemma attributes_uid uid l : simple_uid uid -> (forall x, In x l -> spec restricted x) -> (forall x, In x l -> contains uid (item_text x) = false) -> contains uid (attributes restricted l) = false.
Proof.
  intros Hu Hs Hl. assert (forall w, in_chars fixed_chars w = true -> contains uid w = false) as Fx.
  { intros w Hw. apply uid_82; auto. intros F. pose proof (chars_in (fun c => negb (c =? 82)) fixed_chars w eq_refl Hw) as Q. rewrite forallb_forall in Q. apply Q in F. discriminate. }
  assert (forall ds, (forall d, In d ds -> contains uid d = false) -> contains uid (join (u "; ") ds) = false) as J.
  { induction ds as [|d ds IH]; intros H; [apply Fx; reflexivity|]. destruct ds as [|e ds]; [apply H; left; auto|]. change (join (u "; ") (d :: e :: ds)) with (d ++ 59 :: [] ++ 32 :: join (u "; ") (e :: ds)).
    rewrite !uid_cutting by (auto; vm_compute; reflexivity). rewrite (H d (or_introl eq_refl)), IH by (intros; apply H; right; auto). rewrite (Fx [] eq_refl). reflexivity. }
  assert (forall n v, In (n, v) (meant ElNone true restricted l) -> contains uid n = false /\ contains uid v = false) as Q.
  { intros n v H. destruct (meant_is l n v Hs H) as [H1 H2]. split; [cbn [In attr_names] in H1; repeat (destruct H1 as [<-|H1]; [apply Fx; vm_compute; reflexivity|]); destruct H1|].
    destruct H2 as [[_ (x & Hx & H2)]| ->]; [eapply contains_inside; eauto|]. change (u ";") with [59]. rewrite uid_cutting by (auto; vm_compute; reflexivity). rewrite (Fx [] eq_refl), orb_false_r. apply J.
    intros d Hd. destruct (declaration_is l d Hs Hd) as [[_ (x & Hx & H2)]|H2]; [eapply contains_inside; eauto|apply Fx; exact H2]. }
  unfold attributes. induction (meant ElNone true restricted l) as [|[n v] m IH]; [apply Fx; reflexivity|]. cbn [flat_map fst snd]. destruct (Q n v (or_introl eq_refl)) as [Q1 Q2].
  specialize (IH (fun n' v' H => Q n' v' (or_intror H))). match type of IH with contains uid ?x = false => set (rest := x) in * end.
  change (u " ") with [32]. change (u "=""") with [61; 34]. change (u """") with [34]. rewrite <- !app_assoc. cbn [app]. change (32 :: ?x) with ([] ++ 32 :: x).
  rewrite uid_cutting by (auto; vm_compute; reflexivity). rewrite uid_cutting by (auto; vm_compute; reflexivity).
  match goal with |- context [contains uid (34 :: ?x)] => change (34 :: x) with ([] ++ 34 :: x) end. rewrite uid_cutting by (auto; vm_compute; reflexivity). rewrite uid_cutting by (auto; vm_compute; reflexivity).
  rewrite (Fx [] eq_refl), Q1, Q2, IH. reflexivity.
Qed.
(** Without the language. *)
Lemma pick_not_lang {A} (f : item -> option A) l : (forall s, f (Lang s) = None) -> pick f (filter not_lang l) = pick f l.
Proof. intros H. induction l as [|x l IH]; [reflexivity|]. cbn [filter pick]. destruct x; cbn [not_lang pick]; rewrite ?IH, ?H; reflexivity. Qed.
Lemma sheet_not_lang l : ba_set_lang None (sheet ElNone restricted true l) = sheet ElNone restricted true (filter not_lang l).
Proof.
  unfold sheet, ba_set_lang, declarations. cbn [cell cell_or_row app ba_colspan ba_style ba_class ba_id ba_rowspan ba_span ba_width].
  rewrite !pick_not_lang by (intros; reflexivity). f_equal.
  induction l as [|x l IH]; [reflexivity|]. cbn [filter]. destruct x; cbn [not_lang pick f_lang]; auto.
Qed.
Lemma sheet_lang l : ba_lang (sheet ElNone restricted true l) = language l.
Proof. reflexivity. Qed.
End Sheet.
