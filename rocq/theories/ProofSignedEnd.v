(** Documents of signed blocks: restoring the contents. *)
From Verif Require Import Str Unicode Regex RegexParse RegexSnips RegexTheory RegexAuto RegexGroups Lib ModelBase ModelHtml ModelUrl
  ModelAttrs ModelInline ModelParser SpecRegex ProofRegex ProofCharref SpecParse ProofParse Logic ProofWalk ProofState SpecState ProofMemory ProofCache ProofLinks ProofDoc
  SpecPlain ProofPlain SpecNewlines ProofNewlines ProofParas ProofTags ProofSections ProofBlocks SpecDoc ProofDocument SpecAtts ProofItems SpecSigned ProofSigAtts ProofSigSheet ProofSigned ProofSignedDoc ProofSignedPage.
#[local] Arguments u : simpl never.

(** ** Note lists *)
Definition roomy_trans : list trans :=
  (au_trans paragraph
   ++ flat_map (fun tr => if in_cls (snd (fst tr)) 10 then [(fst (fst tr), ch 60, 320)] else []) (au_trans paragraph)
   ++ [(320, ch 98, 321); (321, ch 114, 322); (322, ch 62, 1); (322, ch 32, 323); (323, ch 47, 324); (324, ch 62, 1)]
   ++ map (fun q => (q, ch 60, 501)) (au_final paragraph)
   ++ [(500, other (u "<"), 500); (500, ch 60, 501); (501, other (u "<p"), 500); (501, ch 112, 502); (502, other (u "<>"), 500); (502, ch 62, 0)])%nat.
Definition roomy : auto := mk_auto roomy_trans 500%nat [500%nat].
Lemma roomy_notelist : never roomy (rx_re TEXT_NOTELIST_RE) = true.
Proof. vm_compute. reflexivity. Qed.

Section End.
Variables (W : world) (T : textile).
Hypothesis uid_simple : simple_uid (t_uid T).
Notation tok n := (fragment_token T n).
Notation br := (br_tag T).
Notation fb := (final_br T).
Notation rr := (t_restricted T).

Ltac last_of := change (au_trans roomy) with roomy_trans; unfold roomy_trans; rewrite !in_app_iff; do 4 right; cbn; tauto.
Definition room (w : str) : Prop := forall rest, Suf roomy 500 rest -> Suf roomy 500 (w ++ rest).
Lemma room_app a b : room a -> room b -> room (a ++ b).
Proof. intros Ha Hb rest H. rewrite <- app_assoc. auto. Qed.
Lemma room_plain w : ~ In 60 w -> room w.
Proof. intros H rest Hr. apply suf_plain; auto. last_of. Qed.
Lemma room_lit w : mem 500 (reach roomy 500 w) = true -> room w.
Proof. intros H rest Hr. eapply suf_reach; eauto. Qed.
Lemma room_br : room br.
Proof. unfold br_tag. destruct (t_html T); apply room_lit; vm_compute; reflexivity. Qed.
Lemma room_breaks t : ~ In 60 t -> room (breaks br t).
Proof.
  induction t as [|c t IH]; intros H; [intros rest Hr; exact Hr|]. unfold breaks. cbn [flat_map]. fold (breaks br t). apply room_app; [|apply IH; intros F; apply H; right; auto].
  destruct (c =? 10); [apply room_br|]. apply room_plain. intros [F|[]]. apply H. left. auto.
Qed.
Ltac mid := change (au_trans roomy) with roomy_trans; unfold roomy_trans; rewrite !in_app_iff; do 2 right; left; cbn; tauto.
Lemma room_br_suf rest : Suf roomy 1 rest -> Suf roomy 320 (match br with [] => [] | _ :: w => w end ++ rest).
Proof.
  intros H. unfold br_tag. destruct (t_html T); [change (u "<br />") with [60; 98; 114; 32; 47; 62]|change (u "<br>") with [60; 98; 114; 62]]; cbn [app].
  all: eapply SufCons with (q' := 321%nat) (l := ch 98); [mid|reflexivity|]; eapply SufCons with (q' := 322%nat) (l := ch 114); [mid|reflexivity|].
  - eapply SufCons with (q' := 323%nat) (l := ch 32); [mid|reflexivity|]; eapply SufCons with (q' := 324%nat) (l := ch 47); [mid|reflexivity|].
    eapply SufCons with (q' := 1%nat) (l := ch 62); [mid|reflexivity|]. exact H.
  - eapply SufCons with (q' := 1%nat) (l := ch 62); [mid|reflexivity|]. exact H.
Qed.
Lemma room_para_suf q t : Suf paragraph q t -> forall rest, (forall f, In f (au_final paragraph) -> Suf roomy f rest) -> Suf roomy q (breaks br t ++ rest).
Proof.
  intros H. induction H as [q Hf|q k q' c t Ht Hc Hs IH]; intros rest Hr; [apply Hr; exact Hf|].
  unfold breaks. cbn [flat_map]. fold (breaks br t). destruct (N.eqb_spec c 10) as [->|Hn].
  - pose proof (newline_to_1 _ _ _ Ht Hc) as ->. pose proof (room_br_suf (breaks br t ++ rest) (IH rest Hr)) as Hb. rewrite <- app_assoc.
    destruct br as [|x w] eqn:Eb; [exfalso; pose proof (br_is T) as F; rewrite Eb in F; destruct F; discriminate|].
    assert (x = 60) as -> by (pose proof (br_is T) as F; rewrite Eb in F; destruct F as [F|F]; inversion F; reflexivity).
    cbn [app]. eapply SufCons with (q' := 320%nat) (l := ch 60); [|reflexivity|exact Hb].
    change (au_trans roomy) with roomy_trans. unfold roomy_trans. apply in_or_app; right; apply in_or_app; left. apply in_flat_map. eexists. split; [exact Ht|].
    cbn [fst snd]. rewrite Hc. left. reflexivity.
  - cbn [app]. eapply SufCons; [apply in_or_app; left; exact Ht|exact Hc|]. apply IH. exact Hr.
Qed.
Lemma room_para t : accepts paragraph t -> room (u "<p>" ++ breaks br t ++ u "</p>").
Proof.
  intros H rest Hr. rewrite <- !app_assoc. change (u "<p>") with [60; 112; 62]. change (u "</p>") with [60; 47; 112; 62]. cbn [app].
  eapply SufCons with (q' := 501%nat) (l := ch 60); [last_of|reflexivity|]. eapply SufCons with (q' := 502%nat) (l := ch 112); [last_of|reflexivity|].
  eapply SufCons with (q' := 0%nat) (l := ch 62); [last_of|reflexivity|]. apply room_para_suf; [exact H|]. intros f Hf.
  eapply SufCons with (q' := 501%nat) (l := ch 60); [change (au_trans roomy) with roomy_trans; unfold roomy_trans; rewrite !in_app_iff; do 3 right; left; apply in_map_iff; exists f; auto|reflexivity|].
  eapply SufCons with (q' := 500%nat) (l := other (u "<p")); [last_of|reflexivity|]. apply (room_plain [112; 62]); [vm_compute; intuition discriminate|exact Hr].
Qed.
Lemma room_sections l : (forall x, In x l -> room x) -> room (sections l).
Proof.
  induction l as [|x l IH]; intros H; [intros rest Hr; exact Hr|]. destruct l as [|y l]; [apply H; left; auto|]. rewrite sections_cons by discriminate. apply room_app; [apply H; left; auto|].
  change (10 :: 10 :: ?z) with ([10; 10] ++ z). apply room_app; [apply room_plain; vm_compute; intuition discriminate|]. apply IH. intros; apply H; right; auto.
Qed.
Lemma room_nil : room [].
Proof. intros rest H. exact H. Qed.
Ltac lit := apply room_lit; vm_compute; reflexivity.
Lemma room_attributes l t : (forall x, In x l -> spec rr x) -> accepts paragraph t -> room ((u "<p" ++ attributes rr l ++ u ">") ++ breaks br t ++ u "</p>").
Proof.
  intros Hl Ht. destruct (attributes_60 rr l Hl) as (L60 & _). destruct (attributes_head rr l) as [E|(w & E)]; rewrite E; [apply (room_para t Ht)|]. rewrite <- !app_assoc.
  assert (~ In 60 w) as Nw by (intros F; apply L60; rewrite E; right; exact F).
  change (u "<p" ++ (32 :: w) ++ ?x) with (u "<p " ++ w ++ x). apply room_app; [lit|]. apply room_app; [apply room_plain; auto|]. apply room_app; [lit|]. apply room_app; [apply room_breaks, para_60; auto|lit].
Qed.
Lemma room_around n g l t : sig_ok T g l -> sig_text g t -> room (around T g l (staged_in T n g t)).
Proof.
  intros Hok Ht. pose proof (sig_spec T g l Hok) as Hl. pose proof (proj1 Hok) as Hk. destruct (attributes_60 rr l Hl) as (L60 & L62). unfold around, staged_in. 
  assert (~ In 60 (tok (n + 1))) as Nt by (apply (tok_without T uid_simple); reflexivity).
  destruct g as [|k| | | |]; cbn [is_text inner_open inner_close sig_text] in *; try (rewrite ?app_nil_r; apply room_plain; exact Nt).
  - apply room_attributes; auto.
  - assert (In (heading_tag k) PBR_NAMES) as Hh by (apply heading_name; auto). 
    assert (room (u "<" ++ heading_tag k)) as R1.
    { assert (k = 1 \/ k = 2 \/ k = 3 \/ k = 4 \/ k = 5 \/ k = 6) as D by lia. repeat (destruct D as [->|D]; [lit|]). subst. lit. }
    assert (room (u "</" ++ heading_tag k ++ u ">")) as R2.
    { assert (k = 1 \/ k = 2 \/ k = 3 \/ k = 4 \/ k = 5 \/ k = 6) as D by lia. repeat (destruct D as [->|D]; [lit|]). subst. lit. }
    rewrite app_assoc, <- !app_assoc, app_assoc. apply room_app; [exact R1|]. apply room_app; [apply room_plain; auto|]. apply room_app; [lit|]. apply room_app; [apply room_breaks, para_60; auto|exact R2].
  - rewrite <- (app_assoc [9]). apply room_app; [lit|]. apply room_attributes; auto.
Qed.
Lemma room_bodies g l : sig_ok T g l -> forall ts n, (forall t, In t ts -> sig_text g t) -> room (sections (map (around T g l) (bodies T n g ts))).
Proof.
  intros Hg ts n Ht. apply room_sections. revert n. induction ts as [|t ts IH]; intros n x Hx; [destruct Hx|]. cbn [bodies map] in Hx.
  destruct Hx as [<-|Hx]; [apply room_around; auto; apply Ht; left; auto|]. eapply IH; eauto. intros; apply Ht; right; auto.
Qed.
Lemma room_group n g l ts : sig_ok T g l -> (forall t, In t ts -> sig_text g t) -> room (staged_group T n g l ts).
Proof.
  intros Hg Ht. unfold staged_group. pose proof (sig_spec T g l Hg) as Hl. destruct (attributes_60 rr l Hl) as (L60 & _). destruct (attributes_60 rr _ (filter_spec rr l Hl)) as (F60 & _). destruct (code_class_60 rr l Hl) as (C60 & _).
  apply room_app; [|apply room_app; [apply room_bodies; auto|]].
  - assert (room (u "<pre" ++ attributes rr l ++ u ">")) as P.
    { destruct (attributes_head rr l) as [E|(w & E)]; rewrite E; [lit|]. assert (~ In 60 w) as Nw by (intros F; apply L60; rewrite E; right; exact F).
      change (u "<pre" ++ (32 :: w) ++ ?x) with (u "<pre " ++ w ++ x). apply room_app; [lit|]. apply room_app; [apply room_plain; auto|lit]. }
    destruct g; cbn [outer_open]; try apply room_nil.
    + apply room_app; [lit|]. apply room_app; [apply room_plain; auto|]. apply room_app; lit.
    + destruct (attributes_head rr (filter not_lang l)) as [E|(w & E)]; rewrite E.
      * apply (room_app (u "<pre><code")); [lit|]. apply room_app; [apply room_plain; auto|]. lit.
      * assert (~ In 60 w) as Nw by (intros F; apply F60; rewrite E; right; exact F).
        change (u "<pre" ++ (32 :: w) ++ ?x) with (u "<pre " ++ w ++ x). apply room_app; [lit|]. apply room_app; [apply room_plain; auto|]. apply room_app; [lit|]. apply room_app; [apply room_plain; auto|]. lit.
    + exact P.
  - destruct g; cbn [outer_close]; try apply room_nil; lit.
Qed.
Lemma bare_ok : sig_ok T SigP [].
Proof. split; [exact I|]. split; [apply no_items_ok|]. split; [apply no_place|]. split; [intros x []|]. apply token_free_nil. exact uid_simple. Qed.
Lemma room_parts ps : forall n, (forall p, In p ps -> fit T p) -> room (sections (staged_parts T n ps)).
Proof.
  intros n H. apply room_sections. revert n. induction ps as [|p ps IH]; intros n x Hx; [destruct Hx|]. cbn [staged_parts] in Hx. apply in_app_or in Hx. destruct Hx as [Hx|Hx].
  - specialize (H p (or_introl eq_refl)). destruct p as [t|g l t|g l t more|t]; cbn [staged_part fit] in *; [destruct Hx as [<-|[]]|destruct Hx as [<-|[]]|destruct Hx as [<-|[]]|destruct Hx].
    + apply room_group; [apply bare_ok|]. intros y [<-|[]]. exact H.
    + apply room_group; [tauto|]. intros y [<-|[]]. tauto.
    + apply room_group; [tauto|]. intros y Hy. apply H. exact Hy.
  - eapply IH; eauto. intros; apply H; right; auto.
Qed.
Lemma parts_notelist ps n : (forall p, In p ps -> fit T p) -> no_match (rx_re TEXT_NOTELIST_RE) (sections (staged_parts T n ps)).
Proof.
  intros H. eapply never_ok; [|exact roomy_notelist]. unfold accepts. cbn [roomy au_start]. rewrite <- (app_nil_r (sections _)). apply room_parts; auto. apply SufNil. left. reflexivity.
Qed.

(** ** The shelf *)
Fixpoint numbered (n : N) (xs : list str) : list (str * str) := match xs with [] => [] | x :: r => (tok (n + 1), x) :: numbered (n + 1) r end.
Lemma numbered_app xs ys : forall n, numbered n (xs ++ ys) = numbered n xs ++ numbered (n + size xs) ys.
Proof.
  induction xs as [|x xs IH]; intros n; cbn [app numbered]; [change (size []) with 0; rewrite N.add_0_r; reflexivity|]. rewrite IH. do 2 f_equal. replace (n + size (x :: xs)) with (n + 1 + size xs) by (unfold size; cbn [List.length]; lia). reflexivity.
Qed.
Lemma numbered_key xs : forall n k, In k (map fst (numbered n xs)) -> exists i, k = tok i /\ n < i.
Proof.
  induction xs as [|x xs IH]; intros n k H; [destruct H|]. cbn [numbered map fst] in H. destruct H as [<-|H]; [exists (n + 1); split; auto; lia|].
  destruct (IH _ _ H) as (i & -> & Hi). exists i. split; auto. lia.
Qed.
Lemma numbered_nodup xs : forall n, NoDup (map fst (numbered n xs)).
Proof.
  induction xs as [|x xs IH]; intros n; [constructor|]. cbn [numbered map fst]. constructor; auto. intros F. apply numbered_key in F. destruct F as (i & F & Hi). apply fragment_token_inj in F. lia.
Qed.
Lemma numbered_tokens xs n : tokens T (numbered n xs).
Proof. intros k Hk. apply numbered_key in Hk. destruct Hk as (i & -> & _). eauto. Qed.
Lemma puts_shelf xs : forall s, (forall k, In k (map fst (ps_shelf s)) -> exists i, k = tok i /\ i <= ps_ref_index s) -> ps_shelf (puts T xs s) = ps_shelf s ++ numbered (ps_ref_index s) xs.
Proof.
  induction xs as [|x xs IH]; intros s H; [rewrite app_nil_r; reflexivity|]. unfold puts in *. cbn [fold_left numbered].
  assert (ps_shelf (put T x s) = ps_shelf s ++ [(tok (ps_ref_index s + 1), x)]) as E.
  { unfold put. cbn [ps_shelf set_shelf]. apply im_insert_new. intros F. apply H in F. destruct F as (i & F & Hi). apply fragment_token_inj in F. lia. }
  rewrite IH.
  - rewrite E. cbn [put ps_ref_index set_shelf set_ref_index]. rewrite <- app_assoc. reflexivity.
  - intros k Hk. rewrite E, map_app in Hk. apply in_app_or in Hk. cbn [put ps_ref_index set_shelf set_ref_index]. destruct Hk as [Hk|[<-|[]]].
    + destruct (H k Hk) as (i & -> & Hi). exists i. split; auto. unfold put. cbn [ps_ref_index set_shelf set_ref_index]. lia.
    + eexists. split; [reflexivity|]. unfold put. cbn [ps_ref_index set_shelf set_ref_index]. lia.
Qed.

(** What comes back. *)
Section Shelf.
Variable shelf : list (str * str).
Hypothesis Hto : tokens T shelf.
Hypothesis Hnd : NoDup (map fst shelf).
Inductive RS : str -> str -> Prop :=
| RS_plain w : uid_free T w -> RS w w
| RS_tok i x : In (tok i, x) shelf -> uid_free T x -> RS (tok i) x
| RS_cut x y d x' y' : delimiter d -> RS x y -> RS x' y' -> RS (x ++ d :: x') (y ++ d :: y').
Lemma RS_pass x y : RS x y -> retrieve_pass shelf x = y.
Proof.
  intros H. induction H as [w Hw|i x Hi Hx|x y d x' y' Hd H1 IH1 H2 IH2].
  - apply (pass_absent T uid_simple); auto.
  - apply (pass_token T uid_simple); auto.
  - rewrite (pass_cut T uid_simple) by auto. rewrite IH1, IH2. reflexivity.
Qed.
Lemma RS_uid x y : RS x y -> uid_free T y.
Proof. intros H. induction H as [w Hw|i x Hi Hx|x y d x' y' Hd H1 IH1 H2 IH2]; auto. unfold uid_free in *. rewrite (uid_cut T uid_simple), IH1, IH2 by auto. reflexivity. Qed.
Lemma uid_no_colon w : ~ In 58 w -> uid_free T w.
Proof.
  intros H. unfold uid_free. destruct (contains (t_uid T) w) eqn:E; auto. apply contains_split in E. destruct E as (a & b & ->). destruct H. apply in_or_app. right. apply in_or_app. left.
  destruct uid_simple as (id & -> & _). apply in_or_app. right. apply in_or_app. right. left. reflexivity.
Qed.
Lemma RS_left w x y : uid_free T w -> (w = [] \/ exists w' d, w = w' ++ [d] /\ delimiter d) -> RS x y -> RS (w ++ x) (w ++ y).
Proof.
  intros Hw [->|(w' & d & -> & Hd)] H; [exact H|]. rewrite <- !app_assoc. cbn [app]. apply RS_cut; auto. apply RS_plain. apply contains_sub in Hw. apply Hw.
Qed.
Lemma RS_right w x y : uid_free T w -> (w = [] \/ exists d w', w = d :: w' /\ delimiter d) -> RS x y -> RS (x ++ w) (y ++ w).
Proof.
  intros Hw [->|(d & w' & -> & Hd)] H; [rewrite !app_nil_r; exact H|]. apply RS_cut; auto. apply RS_plain. apply (contains_sub _ [d] w') in Hw. apply Hw.
Qed.
Lemma RS_nil : RS [] [].
Proof. apply RS_plain, uid_no_colon. intros []. Qed.
Lemma RS_sections xs ys : Forall2 RS xs ys -> RS (sections xs) (sections ys).
Proof.
  intros H. induction H as [|x y xs ys Hxy H IH]; [apply RS_nil|]. destruct H as [|x' y' xs ys Hxy' H]; [exact Hxy|]. rewrite !sections_cons by discriminate.
  apply RS_cut; [left; auto|exact Hxy|]. apply (RS_cut [] [] 10); [left; auto|apply RS_nil|exact IH].
Qed.
Ltac no_colon := let F := fresh in intros F; repeat (rewrite ?in_app_iff in F); repeat (destruct F as [F|F]); try contradiction; try (vm_compute in F; intuition discriminate).
Ltac delim := first [left; reflexivity | right; left; reflexivity | right; right; reflexivity].
Lemma items_uid g l : sig_ok T g l -> forall x, In x l -> contains (t_uid T) (item_text x) = false.
Proof. intros (_ & _ & _ & _ & H) x Hx. apply token_free_iff in H. eapply contains_inside; [apply item_inside; exact Hx|exact H]. Qed.
Lemma uid_between a att b : ~ In 58 a -> (att = [] \/ exists w, att = 32 :: w) -> uid_free T att -> ~ In 58 b -> uid_free T (a ++ att ++ 62 :: b).
Proof.
  intros Ha Hh Hf Hb. unfold uid_free. rewrite app_assoc. rewrite (uid_cutting _ 62) by (auto; vm_compute; reflexivity). rewrite (uid_no_colon b Hb), orb_false_r.
  destruct Hh as [->|(w & ->)]; [rewrite app_nil_r; apply uid_no_colon; exact Ha|]. rewrite (uid_cutting _ 32) by (auto; vm_compute; reflexivity). rewrite (uid_no_colon a Ha). apply (contains_sub _ [32] w) in Hf. apply Hf.
Qed.
Lemma opening_uid g l : sig_ok T g l -> uid_free T (inner_open rr g l) /\ uid_free T (outer_open rr g l).
Proof.
  intros Hok. pose proof (sig_spec T g l Hok) as Hl. pose proof (proj1 Hok) as Hk. pose proof (items_uid g l Hok) as Hu.
  pose proof (attributes_uid rr _ l uid_simple Hl Hu) as U1. pose proof (attributes_head rr l) as A1.
  assert (forall x, In x (filter not_lang l) -> contains (t_uid T) (item_text x) = false) as Hu' by (intros x Hx; apply filter_In in Hx as [Hx _]; auto).
  pose proof (attributes_uid rr _ _ uid_simple (filter_spec rr l Hl) Hu') as U2. pose proof (attributes_head rr (filter not_lang l)) as A2.
  assert (~ In 58 (u "<code" ++ code_class l ++ u ">")) as C58.
  { unfold code_class. destruct (language l) as [w|] eqn:E; [|vm_compute; intuition discriminate]. apply language_in in E. destruct (Hl _ E) as [_ Hw]. cbn [sig_item] in Hw. pose proof (lang_without w 58 Hw eq_refl) as Nw.
    intros F. rewrite in_app_iff in F. destruct F as [F|F]; [vm_compute in F; intuition discriminate|]. rewrite in_app_iff in F. destruct F as [F|F]; [|vm_compute in F; intuition discriminate].
    destruct (in_chars name_chars w); [|destruct F]. rewrite !in_app_iff in F. destruct F as [F|[F|F]]; [vm_compute in F; intuition discriminate|exact (Nw F)|vm_compute in F; intuition discriminate]. }
  assert (uid_free T []) as U0 by (apply uid_no_colon; intros []).
  assert (~ In 58 (@nil N)) as N0 by (intros []).
  split; destruct g as [|k| | | |]; cbn [inner_open outer_open]; try exact U0; change (u ">") with [62]; cbn [app].
  - apply uid_between; auto. vm_compute; intuition discriminate.
  - rewrite app_assoc. apply uid_between; auto. intros F. apply in_app_or in F as [F|F]; [vm_compute in F; intuition discriminate|]. unfold heading_tag in F. destruct F as [F|[F|[]]]; lia.
  - change (9 :: u "<p" ++ attributes rr l ++ [62]) with ((9 :: u "<p") ++ attributes rr l ++ [62]). apply uid_between; auto. vm_compute; intuition discriminate.
  - apply uid_between; auto; vm_compute; intuition discriminate.
  - change (u "><code") with (62 :: u "<code"). cbn [app]. apply uid_between; auto. vm_compute; intuition discriminate.
  - apply uid_between; auto. vm_compute; intuition discriminate.
Qed.
Lemma RS_around n g l t : sig_ok T g l -> sig_text g t -> uid_free T t -> incl (numbered n (stored_in g t)) shelf -> RS (around T g l (staged_in T n g t)) (inner rr br g l t).
Proof.
  intros Hok Ht Hu Hi. pose proof (proj1 Hok) as Hk. unfold around, inner.
  assert (k_ok : forall k, 1 <= k <= 6 -> ~ In 58 (heading_tag k)) by (intros k D; unfold heading_tag; intros [F|[F|[]]]; lia).
  apply RS_left.
  { apply opening_uid. exact Hok. }
  { destruct g; cbn [inner_open]; try (left; reflexivity); right; [exists (u "<p" ++ attributes rr l)|exists (u "<" ++ heading_tag n0 ++ attributes rr l)|exists ([9] ++ u "<p" ++ attributes rr l)]; exists 62; (split; [rewrite <- !app_assoc; reflexivity|delim]). }
  apply RS_right.
  { apply uid_no_colon. clear - k_ok Hk. destruct g; cbn [inner_close] in *; (intros F; rewrite ?in_app_iff in F; repeat match type of F with _ \/ _ => destruct F as [F|F] end; first [exact (k_ok _ Hk F)|vm_compute in F; intuition discriminate]). }
  { destruct g; cbn [inner_close]; try (left; reflexivity); right; eexists _, _; (split; [reflexivity|delim]). }
  unfold staged_in. destruct (is_text g) eqn:Eg.
  - pose proof (text_para g t Eg Ht) as Hp. replace (inside br g t) with (breaks br t) by (destruct g; try discriminate; reflexivity). apply RS_plain. apply (uid_breaks T uid_simple); [left; apply br_is|apply para_uid; auto].
  - destruct g; try discriminate; cbn [inside stored_in] in *; (apply RS_tok; [apply Hi; left; rewrite ?entities_encode; reflexivity|]); auto; apply uid_entities; auto.
Qed.
Lemma RS_bodies g l : sig_ok T g l -> forall ts n, (forall t, In t ts -> sig_text g t /\ uid_free T t) -> incl (numbered n (flat_map (stored_in g) ts)) shelf ->
  RS (sections (map (around T g l) (bodies T n g ts))) (sections (map (inner rr br g l) ts)).
Proof.
  intros Hg ts n Ht Hi. apply RS_sections. revert n Hi. induction ts as [|t ts IH]; intros n Hi; [constructor|]. cbn [bodies map flat_map] in *. rewrite numbered_app in Hi.
  constructor; [apply RS_around; auto; try (apply Ht; left; auto); intros x Hx; apply Hi, in_or_app; auto|]. apply IH; [intros; apply Ht; right; auto|]. intros x Hx. apply Hi, in_or_app. auto.
Qed.
Lemma RS_group n g l ts : sig_ok T g l -> (forall t, In t ts -> sig_text g t /\ uid_free T t) -> incl (numbered n (flat_map (stored_in g) ts)) shelf ->
  RS (staged_group T n g l ts) (group rr br g l ts).
Proof.
  intros Hg Ht Hi. unfold staged_group, group.
  apply RS_left.
  { apply opening_uid. exact Hg. }
  { destruct g; cbn [outer_open]; try (left; reflexivity); right; [exists (u "<blockquote" ++ attributes rr l ++ u ">"), 10|exists (u "<pre" ++ attributes rr (filter not_lang l) ++ u "><code" ++ code_class l), 62|exists (u "<pre" ++ attributes rr l), 62]; (split; [rewrite <- !app_assoc; reflexivity|delim]). }
  apply RS_right; [apply uid_no_colon; destruct g; cbn [outer_close]; try (intros []; fail); try (vm_compute; intuition discriminate)| |apply RS_bodies; auto].
  destruct g; cbn [outer_close]; try (left; reflexivity); right; eexists _, _; (split; [reflexivity|delim]).
Qed.
Lemma para_fits t : accepts paragraph t -> sig_ok T SigP [] /\ (forall x, In x [t] -> sig_text SigP x /\ uid_free T x).
Proof. intros H. split; [apply bare_ok|]. intros x [<-|[]]. split; [exact H|]. apply para_uid; auto. Qed.
Lemma RS_parts ps : forall n, (forall p, In p ps -> fit T p) -> incl (numbered n (flat_map stored_of ps)) shelf ->
  RS (sections (staged_parts T n ps)) (page_html rr br ps).
Proof.
  intros n Hp Hi. apply RS_sections. revert n Hi. induction ps as [|p ps IH]; intros n Hi; [constructor|]. cbn [staged_parts flat_map] in *. rewrite numbered_app in Hi.
  assert (incl (numbered n (stored_of p)) shelf) as I1 by (intros x Hx; apply Hi, in_or_app; auto).
  apply Forall2_app; [|apply IH; [intros; apply Hp; right; auto|intros x Hx; apply Hi, in_or_app; auto]].
  specialize (Hp p (or_introl eq_refl)). destruct p as [t|g l t|g l t more|t]; cbn [staged_part part_html fit stored_of] in *; [constructor; [|constructor]|constructor; [|constructor]|constructor; [|constructor]|constructor].
  - destruct (para_fits t Hp). apply RS_group; auto. 
  - apply RS_group; [tauto| |cbn [flat_map]; rewrite app_nil_r; exact I1]. intros x [<-|[]]. tauto.
  - apply RS_group; [tauto| |exact I1]. intros x Hx. apply Hp. exact Hx.
Qed.
End Shelf.
Lemma restore_parts fuel ps s : (1 < fuel)%nat -> (forall p, In p ps -> fit T p) -> ps_shelf s = numbered 0 (flat_map stored_of ps) ->
  retrieve fuel (sections (staged_parts T 0 ps)) s = Ret (page_html rr br ps) s /\ uid_free T (page_html rr br ps).
Proof.
  intros Hf Hb Hs. set (sh := numbered 0 (flat_map stored_of ps)) in *. pose proof (numbered_tokens (flat_map stored_of ps) 0 : tokens T sh) as Ht. pose proof (numbered_nodup (flat_map stored_of ps) 0 : NoDup (map fst sh)) as Hd.
  pose proof (RS_parts sh ps 0 Hb (fun x H => H)) as R. pose proof (RS_uid sh _ _ R) as U. pose proof (RS_pass sh Ht Hd _ _ R) as E1. split; auto.
  unfold retrieve, bind, get. rewrite Hs. assert (retrieve_pass sh (page_html rr br ps) = page_html rr br ps) as E2 by (apply (pass_absent T uid_simple); auto).
  destruct fuel as [|[|f]]; [lia|lia|]. cbn [retrieve_loop]. rewrite E1. destruct (seqb _ (sections (staged_parts T 0 ps))) eqn:Eq; [reflexivity|].
  rewrite E2. rewrite seqb_refl. reflexivity.
Qed.
End End.
