(** Documents that mix blocks of all kinds. *)
From Coq Require Import ZArith.
From Verif Require Import Str Unicode Regex RegexParse RegexSnips RegexTheory RegexAuto RegexGroups Lib ModelBase ModelHtml ModelUrl
  ModelAttrs ModelInline ModelParser SpecRegex ProofRegex SpecHtml ProofHtml ProofCharref SpecParse ProofParse Logic ProofWalk ProofState SpecState ProofMemory ProofCache ProofLinks ProofSpan ProofDoc
  SpecPlain ProofPlain SpecNewlines ProofNewlines ProofParas ProofTags ProofSections ProofBlocks ProofStateEx SpecDoc ProofDocument SpecText ProofText ProofPieces ProofWeave
  SpecLists ProofLists ProofListText ProofListDoc SpecTables ProofTables ProofTableRows ProofTableDoc SpecDefs ProofDefs
  SpecAtts ProofItems SpecSigned ProofSigAtts ProofSigSheet ProofSigned ProofSignedDoc ProofSignedPage ProofSignedEnd ProofSignedTop SpecMixed.
#[local] Arguments u : simpl never.

(** ** Results in which no paragraph and no line break begins *)
Definition begins : cls := mk_cls false (map (fun c => CRange c c) [60; 112; 98; 66]).
Definition tag_begins : re := RSeq (RCls (ProofParse.one 60)) (RCls begins).
Lemma list_tags : never outer_a tag_begins = true /\ never outer_a uid_lead = true.
Proof. split; vm_compute; reflexivity. Qed.
Lemma table_tags : never table_a tag_begins = true /\ never table_a uid_lead = true.
Proof. split; vm_compute; reflexivity. Qed.
Lemma defs_tags : never dresult_a tag_begins = true /\ never dresult_a uid_lead = true.
Proof. split; vm_compute; reflexivity. Qed.
Lemma begins_in c : c = 60 \/ c = 112 \/ c = 98 \/ c = 66 -> in_cls begins c = true.
Proof. intros [->|[->|[->| ->]]]; reflexivity. Qed.
Lemma no_begins w : no_match tag_begins w -> forall a c b, w = a ++ 60 :: c :: b -> in_cls begins c = false.
Proof.
  intros H a c b E. destruct (in_cls begins c) eqn:F; [|reflexivity]. specialize (H a (60 :: c :: b) E). unfold match_at, tag_begins in H. rewrite m_seq, m_cls in H. cbn [m_before m_after m_caps] in H.
  rewrite in_one in H. change (60 =? 60) with true in H. cbv iota in H. rewrite m_cls in H. cbn [step m_before m_after m_caps] in H. rewrite F in H. discriminate.
Qed.
Definition unbegun (w : str) : Prop := forall a c b, w = a ++ 60 :: c :: b -> in_cls begins c = false.
Lemma unbegun_tail c w : unbegun (c :: w) -> unbegun w.
Proof. intros H a x b E. apply (H (c :: a) x b). rewrite E. reflexivity. Qed.
Lemma unbegun_head c w : unbegun (60 :: c :: w) -> in_cls begins c = false.
Proof. intros H. apply (H [] c w). reflexivity. Qed.
Lemma unbegun_room w : unbegun w -> forall v, w = v ++ [62] \/ w = [] -> forall rest, Suf roomy 500 rest ->
  Suf roomy 500 (w ++ rest) /\ (forall c r, w = c :: r -> in_cls begins c = false -> Suf roomy 501 (w ++ rest)).
Proof.
  induction w as [|c w IH]; intros H v Hv rest Hr; [split; [exact Hr|discriminate]|].
  destruct Hv as [Hv|Hv]; [|discriminate].
  assert (Hw : exists v', w = v' ++ [62] \/ w = []).
  { destruct v as [|x v]; [exists []; right; inversion Hv; reflexivity|exists v; left; inversion Hv; reflexivity]. }
  destruct Hw as (v' & Hw). destruct (IH (unbegun_tail c w H) v' Hw rest Hr) as [I1 I2]. cbn [app]. split.
  - destruct (N.eqb_spec c 60) as [->|Hc].
    + destruct w as [|x w]; [destruct v as [|? v]; [discriminate|destruct v; discriminate]|]. eapply SufCons with (q' := 501%nat) (l := ch 60); [|reflexivity|apply (I2 x w eq_refl), (unbegun_head x w H)].
      change (au_trans roomy) with roomy_trans. unfold roomy_trans. rewrite !in_app_iff. do 4 right. cbn. tauto.
    + eapply SufCons with (q' := 500%nat) (l := other (u "<")); [|apply other_in; change (u "<") with [60]; intros [F|[]]; apply Hc; symmetry; exact F|exact I1].
      change (au_trans roomy) with roomy_trans. unfold roomy_trans. rewrite !in_app_iff. do 4 right. cbn. tauto.
  - intros x r E Hx. inversion E; subst x r. eapply SufCons with (q' := 500%nat) (l := other (u "<p")); [| |exact I1].
    + change (au_trans roomy) with roomy_trans. unfold roomy_trans. rewrite !in_app_iff. do 4 right. cbn. tauto.
    + apply other_in. change (u "<p") with [60; 112]. intros [F|[F|[]]]; subst c; discriminate.
Qed.
Lemma unbegun_safe w : unbegun w -> (exists v, w = v ++ [62]) -> safe w = true.
Proof.
  induction w as [|c w IH]; intros H (v & Hv); [reflexivity|]. cbn [safe].
  assert (safe w = true) as ->. { destruct v as [|x v]; [inversion Hv; reflexivity|]. apply IH; [apply (unbegun_tail c w H)|]. exists v. inversion Hv. reflexivity. }
  rewrite andb_true_r. destruct (N.eqb_spec c 60) as [->|]; [|reflexivity]. destruct w as [|x w]; [destruct v as [|? v]; [discriminate|destruct v; discriminate]|].
  pose proof (unbegun_head x w H) as Hx. assert (is_b x = false) as Hb.
  { unfold is_b. destruct (N.eqb_spec x 98) as [->|]; [discriminate|]. destruct (N.eqb_spec x 66) as [->|]; [discriminate|]. reflexivity. }
  rewrite Hb. cbn [andb negb]. destruct w; reflexivity.
Qed.
Record calm_html (T : textile) (h : str) : Prop := mk_calm {
  calm_room : ProofSignedEnd.room h;
  calm_uid : uid_free T h;
  calm_safe : safe h = true;
  calm_last : exists v d, h = v ++ [d] /\ d <> 10 }.
Lemma calm_of T A h : simple_uid (t_uid T) -> accepts A h -> never A tag_begins = true /\ never A uid_lead = true -> (exists v, h = v ++ [62]) -> calm_html T h.
Proof.
  intros Hu HA (H1 & H2) (v & Hv). assert (U : unbegun h) by (exact (no_begins h (never_ok A _ h HA H1))). split.
  - intros rest Hr. apply (unbegun_room h U v (or_introl Hv) rest Hr).
  - unfold uid_free. apply lead_absent; [exact Hu|]. eapply never_ok; [exact HA|exact H2].
  - apply unbegun_safe; eauto.
  - exists v, 62. split; [exact Hv|discriminate].
Qed.

Section Mixed.
Variables (W : world) (T : textile).
Hypothesis uid_simple : simple_uid (t_uid T).
Hypothesis not_lite : t_lite T = false.
Notation br := (br_tag T).
Notation fb := (final_br T).
Notation rr := (t_restricted T).

(** ** The pieces as the parser sees them *)
Definition fits (m : mixed) : Prop :=
  match m with
  | Worded p => fit T p
  | Listed k items => proper_list k items
  | Tabled t => proper_table rr t
  | Defined l => proper_defs l
  end.
Definition mixed_stored (m : mixed) : list str := match m with Worded p => stored_of p | _ => [] end.
Definition mixed_stage (n : N) (m : mixed) (c : counters) : option (list str * counters) :=
  match m with Worded p => Some (staged_part T n p, c) | _ => mixed_html rr br m c end.
Fixpoint mixed_stages (n : N) (ms : list mixed) (c : counters) : option (list str) :=
  match ms with
  | [] => Some []
  | m :: rest =>
      match mixed_stage n m c with
      | None => None
      | Some (hs, c') => match mixed_stages (n + size (mixed_stored m)) rest c' with None => None | Some l => Some (hs ++ l) end
      end
  end.
Definition steady (c : counters) (s : pstate) : Prop := @cache_ok (own T) (ps_cache s) /\ ps_borrowed s = false /\ agrees c s.
Lemma frame_puts xs : forall s, frame (puts T xs s) = puts T xs (frame s).
Proof. induction xs as [|x xs IH]; intros s; [reflexivity|]. unfold puts in *. cbn [fold_left]. rewrite IH. reflexivity. Qed.
Lemma puts_starts xs : forall s, ps_ol_starts (puts T xs s) = ps_ol_starts s.
Proof. induction xs as [|x xs IH]; intros s; [reflexivity|]. unfold puts in *. cbn [fold_left]. rewrite IH. reflexivity. Qed.
Definition comment (m : mixed) : bool := match m with Worded (Comment _) => true | _ => false end.
(** A piece that is no marked block. *)
Lemma other_step fuel t h a s s' : bl_ext a = [] -> shown_as W T fuel t h s s' ->
  exists a', foldM (block_step W T (graf W T fuel)) a (section_pieces [t]) s = Ret a' s' /\ good a' /\ total a' = total a ++ flat_map (fun h => bl_ws a ++ h) [h] /\
    bl_ws a' = [] /\ bl_eat_ws a' = false /\ bl_ext a' = [].
Proof.
  intros Ha H. eexists. cbn [section_pieces foldM]. unfold bind. rewrite (shown_step W T fuel a t h s s' Ha H). split; [reflexivity|]. split; [intros F; destruct F; reflexivity|].
  split; [|repeat split]. unfold total. cbn [bl_out bl_ext is_empty rev flat_map]. rewrite Ha. cbn [is_empty]. rewrite !app_nil_r, concat_app. cbn [List.concat]. rewrite app_nil_r. reflexivity.
Qed.
Lemma other_panic fuel t a s : bl_ext a = [] -> piece_of T t -> graf W T fuel t s = Panic Overflow ->
  foldM (block_step W T (graf W T fuel)) a (section_pieces [t]) s = Panic Overflow.
Proof. intros Ha H E. cbn [section_pieces foldM]. unfold bind at 1. rewrite (piece_step W T fuel a t s Ha H). unfold bind. rewrite E. reflexivity. Qed.
Lemma steady_good c s : steady c s -> good_state T s c s.
Proof. intros (C1 & C2 & C3). repeat split; auto. Qed.
Lemma mixed_step fuel m c a s : (1 < fuel)%nat -> fits m -> good a -> (bare m = true -> bl_ext a = []) -> steady c s ->
  match mixed_stage (ps_ref_index s) m c with
  | Some (hs, c') => exists a' s', foldM (block_step W T (graf W T fuel)) a (section_pieces (mixed_pieces m)) s = Ret a' s' /\ good a' /\
      total a' = total a ++ flat_map (fun h => bl_ws a ++ h) hs /\
      (if comment m then bl_ws a' = bl_ws a /\ bl_eat_ws a' = true /\ hs = [] else bl_ws a' = [] /\ bl_eat_ws a' = false /\ exists h, hs = [h]) /\
      (takes_more m = false -> bl_ext a' = []) /\ steady c' s' /\ frame s' = frame (puts T (mixed_stored m) s)
  | None => foldM (block_step W T (graf W T fuel)) a (section_pieces (mixed_pieces m)) s = Panic Overflow
  end.
Proof.
  intros Hf Hm Ha Hb Hs. destruct m as [p|k items|t|l]; cbn [fits mixed_stage mixed_pieces mixed_stored mixed_html comment takes_more bare] in *.
  - destruct fuel as [|[|n]]; [lia|lia|]. destruct Hs as (C1 & C2 & C3). unfold graf.
    destruct (part_step W T uid_simple (S (S n)) (S n) p a s) as (a' & c2 & Hc2 & E & G & O & W1 & X); auto; [lia|destruct p; auto|].
    destruct (puts_own T (stored_of p) (set_cache c2 s)) as (P1 & P2 & _ & _).
    exists a', (puts T (stored_of p) (set_cache c2 s)). split; [exact E|]. split; [exact G|]. split; [exact O|]. split.
    { destruct p; cbn [staged_part]; try (destruct W1 as [W1 W2]; split; [exact W1|split; [exact W2|]]; first [reflexivity|eexists; reflexivity]). }
    split; [destruct p; intros F; auto; discriminate|]. split; [|rewrite !frame_puts; reflexivity].
    split; [rewrite P1; exact Hc2|]. split; [rewrite P2; exact C2|]. unfold agrees in *. rewrite puts_starts. exact C3.
  - destruct (list_html k items c) as [[x c']|] eqn:E.
    + destruct (list_shown W T uid_simple not_lite s fuel k items c x c' s ltac:(lia) Hm (steady_good c s Hs) E) as (s' & S1 & (G1 & G2 & G3 & G4)).
      destruct (other_step fuel _ x a s s' (Hb eq_refl) S1) as (a' & F1 & F2 & F3 & F4 & F5 & F6). exists a', s'. split; [exact F1|]. split; [exact F2|]. split; [exact F3|]. split; [split; [exact F4|split; [exact F5|eexists; reflexivity]]|]. split; [intros _; exact F6|]. split; [split; [exact G1|split; [exact G2|exact G3]]|exact G4].
    + apply other_panic; [auto|apply (source_piece T uid_simple not_lite k items Hm)|]. destruct fuel as [|n]; [lia|].
      pose proof (graf_list W T uid_simple not_lite s (S n) n k items c s ltac:(lia) Hm (steady_good c s Hs)) as G. rewrite E in G. exact G.
  - destruct (table_shown W T uid_simple not_lite s fuel t c s ltac:(lia) Hm (steady_good c s Hs)) as (s' & S1 & (G1 & G2 & G3 & G4)).
    destruct (other_step fuel _ _ a s s' (Hb eq_refl) S1) as (a' & F1 & F2 & F3 & F4 & F5 & F6). exists a', s'. split; [exact F1|]. split; [exact F2|]. split; [exact F3|]. split; [split; [exact F4|split; [exact F5|eexists; reflexivity]]|]. split; [intros _; exact F6|]. split; [split; [exact G1|split; [exact G2|exact G3]]|exact G4].
  - destruct (defs_shown W T uid_simple not_lite s fuel l c s Hf Hm (steady_good c s Hs)) as (s' & S1 & (G1 & G2 & G3 & G4)).
    destruct (other_step fuel _ _ a s s' (Hb eq_refl) S1) as (a' & F1 & F2 & F3 & F4 & F5 & F6). exists a', s'. split; [exact F1|]. split; [exact F2|]. split; [exact F3|]. split; [split; [exact F4|split; [exact F5|eexists; reflexivity]]|]. split; [intros _; exact F6|]. split; [split; [exact G1|split; [exact G2|exact G3]]|exact G4].
Qed.
(** ** All pieces *)
Lemma mixed_some m : exists x l, mixed_pieces m = x :: l.
Proof. destruct m as [p|k items|t|l]; cbn [mixed_pieces]; [apply pieces_some| | |]; eexists _, _; reflexivity. Qed.
Lemma foldM_panic {A B} (f : B -> A -> M B) l1 l2 b s e : foldM f b l1 s = Panic e -> foldM f b (l1 ++ l2) s = Panic e.
Proof. intros E. rewrite foldM_app. unfold bind. rewrite E. reflexivity. Qed.
Lemma mixed_split m m' ms : section_pieces (flat_map mixed_pieces (m :: m' :: ms)) = section_pieces (mixed_pieces m) ++ [10; 10] :: section_pieces (flat_map mixed_pieces (m' :: ms)).
Proof.
  change (flat_map mixed_pieces (m :: m' :: ms)) with (mixed_pieces m ++ flat_map mixed_pieces (m' :: ms)). destruct (mixed_some m) as (x & l & ->).
  assert (exists y l', flat_map mixed_pieces (m' :: ms) = y :: l') as (y & l' & ->) by (cbn [flat_map]; destruct (mixed_some m') as (y & l' & ->); eexists _, _; reflexivity).
  cbn [app]. rewrite !pieces_trail, trail_app. reflexivity.
Qed.
Lemma joined_snoc w h hs : joined w (h :: hs) = w ++ h ++ joined [10; 10] hs.
Proof. destruct hs as [|h2 hs]; [cbn [joined sections]; rewrite app_nil_r; reflexivity|]. cbn [joined]. rewrite (sections_trail h), (sections_trail h2). cbn [flat_map]. rewrite <- !app_assoc. reflexivity. Qed.
Lemma mixed_fold fuel : (1 < fuel)%nat -> forall ms c a s, Forall fits ms -> apart ms -> good a -> match ms with m :: _ => bare m = true -> bl_ext a = [] | [] => True end -> steady c s -> ms <> [] ->
  match mixed_stages (ps_ref_index s) ms c with
  | Some hs => exists a' s' c', foldM (block_step W T (graf W T fuel)) a (section_pieces (flat_map mixed_pieces ms)) s = Ret a' s' /\ good a' /\
      total a' = total a ++ joined (bl_ws a) hs /\ steady c' s' /\ frame s' = frame (puts T (flat_map mixed_stored ms) s)
  | None => foldM (block_step W T (graf W T fuel)) a (section_pieces (flat_map mixed_pieces ms)) s = Panic Overflow
  end.
Proof.
  intros Hf. induction ms as [|m ms IH]; intros c a s Hm Hap Ha Hfo Hs Hne; [congruence|]. inversion Hm as [|? ? Hm1 Hm2]; subst.
  pose proof (mixed_step fuel m c a s Hf Hm1 Ha Hfo Hs) as St. cbn [mixed_stages].
  destruct (mixed_stage (ps_ref_index s) m c) as [[hs1 c1]|].
  2:{ destruct ms as [|m' ms]; [cbn [flat_map]; rewrite app_nil_r; exact St|]. rewrite mixed_split. apply foldM_panic. exact St. }
  destruct St as (a1 & s1 & E1 & G1 & O1 & W1 & X1 & S1 & F1). destruct ms as [|m' ms].
  - cbn [mixed_stages flat_map]. rewrite !app_nil_r. exists a1, s1, c1. split; [exact E1|]. split; [exact G1|]. split; [|split; [exact S1|exact F1]].
    rewrite O1. f_equal. destruct (comment m); [destruct W1 as (_ & _ & ->); reflexivity|destruct W1 as (_ & _ & h & ->); cbn [flat_map joined sections]; rewrite app_nil_r; reflexivity].
  - set (a2 := mk_bl (bl_out a1) (if bl_eat_ws a1 then bl_ws a1 else bl_ws a1 ++ [10; 10]) (bl_eat_ws a1) (bl_ext a1) (bl_tag a1) (bl_atts a1) (bl_cite a1) (bl_closing a1) (bl_eat a1)).
    assert (Er : ps_ref_index s1 = ps_ref_index s + size (mixed_stored m)).
    { change (ps_ref_index s1) with (ps_ref_index (frame s1)). rewrite F1. rewrite frame_puts, puts_ref. reflexivity. }
    destruct Hap as [Hap1 Hap2]. specialize (IH c1 a2 s1 Hm2 Hap2 G1). rewrite Er in IH.
    assert (E : forall k, foldM (block_step W T (graf W T fuel)) a (section_pieces (mixed_pieces m) ++ [10; 10] :: k) s = foldM (block_step W T (graf W T fuel)) a2 k s1).
    { intros k. rewrite foldM_app. unfold bind at 1. rewrite E1. cbn [foldM]. unfold bind at 1. rewrite blank_any. fold a2. reflexivity. }
    rewrite mixed_split, E. assert (IH' := IH ltac:(intros Hb; cbn [a2 bl_ext]; apply X1; destruct (takes_more m); [rewrite Hap1 in Hb by reflexivity; discriminate|reflexivity]) S1 ltac:(discriminate)). clear IH.
    destruct (mixed_stages (ps_ref_index s + size (mixed_stored m)) (m' :: ms) c1) as [hs2|]; [|exact IH'].
    destruct IH' as (a3 & s3 & c3 & E3 & G3 & O3 & S3 & F3). exists a3, s3, c3. split; [exact E3|]. split; [exact G3|]. split; [|split; [exact S3|]].
    + rewrite O3. change (total a2) with (total a1). rewrite O1. rewrite <- app_assoc. f_equal. cbn [a2 bl_ws]. unfold a2. cbn [bl_ws].
      destruct (comment m); destruct W1 as (W1 & W2 & W3); rewrite W1, W2.
      * rewrite W3. reflexivity.
      * destruct W3 as (h & ->). cbn [flat_map app]. rewrite app_nil_r, joined_snoc, <- app_assoc. reflexivity.
    + rewrite F3. change (flat_map mixed_stored (m :: m' :: ms)) with (mixed_stored m ++ flat_map mixed_stored (m' :: ms)). rewrite puts_app, !(frame_puts (flat_map mixed_stored (m' :: ms))). f_equal. exact F1.
Qed.

(** ** The results *)
Lemma part_calm m c hs c' : fits m -> (match m with Worded _ => False | _ => True end) -> mixed_html rr br m c = Some (hs, c') -> exists h, hs = [h] /\ calm_html T h.
Proof.
  intros Hm Hw E. destruct m as [p|k items|t|l]; cbn [fits mixed_html] in *; [contradiction| | |].
  - destruct (list_html k items c) as [[x c1]|] eqn:E1; [|discriminate]. inversion E; subst. eexists. split; [reflexivity|]. destruct (html_outer k items c x c' Hm E1) as (Hx & a & Ea).
    eapply calm_of; [exact uid_simple|exact Hx|exact list_tags|]. destruct (ends_closing a k) as (v & Ev). exists v. rewrite Ea. exact Ev.
  - inversion E; subst. eexists. split; [reflexivity|]. eapply calm_of; [exact uid_simple|exact (table_shape rr t Hm)|exact table_tags|apply table_end_62].
  - inversion E; subst. eexists. split; [reflexivity|]. destruct (defs_html_ok l (proj1 Hm) (defs_ne l Hm)) as (Hx & v & Ev). eapply calm_of; [exact uid_simple|exact Hx|exact defs_tags|].
    exists (v ++ u "</dl"). rewrite Ev, <- app_assoc. reflexivity.
Qed.
Lemma html_any m x y c : (match m with Worded _ => False | _ => True end) -> mixed_html rr x m c = mixed_html rr y m c.
Proof. destruct m; intros H; [contradiction|reflexivity|reflexivity|reflexivity]. Qed.
Lemma single {A} (P : A -> Prop) x : P x -> forall y, In y [x] -> P y.
Proof. intros H y [<-|[]]. exact H. Qed.
Definition brs_pair (x y : str) : Prop := forall a b, brs br fb a b -> ended a -> brs br fb (x ++ a) (y ++ b).
Definition ends (x : str) : Prop := exists v d, x = v ++ [d] /\ d <> 10.
Lemma worded_results n p : fit T p ->
  (forall x, In x (staged_part T n p) -> ProofSignedEnd.room x) /\
  (forall shelf, incl (numbered T n (stored_of p)) shelf -> Forall2 (RS T shelf) (staged_part T n p) (SpecSigned.part_html rr br p)) /\
  Forall2 brs_pair (SpecSigned.part_html rr br p) (SpecSigned.part_html rr fb p) /\
  (forall x, In x (SpecSigned.part_html rr fb p) -> ends x).
Proof.
  intros H. pose proof (room_parts T uid_simple [p] n (single (fit T) p H)) as Hr. pose proof (fun sh => RS_parts T uid_simple sh [p] n (single (fit T) p H)) as Hs.
  cbn [staged_parts flat_map] in Hr, Hs. unfold page_html in Hs. cbn [flat_map] in Hs. rewrite !app_nil_r in Hr, Hs.
  assert (G : forall g l ts, sig_ok T g l -> (forall t, In t ts -> sig_text g t) -> ts <> [] -> brs_pair (group rr br g l ts) (group rr fb g l ts) /\ ends (group rr fb g l ts)).
  { intros g l ts G1 G2 G3. split; [intros a b; apply group_brs; auto|apply group_last; auto]. }
  destruct p as [t|g l t|g l t more|t]; cbn [staged_part SpecSigned.part_html fit stored_of] in *.
  - split; [intros x [<-|[]]; exact Hr|]. split; [intros sh Hi; constructor; [apply Hs; exact Hi|constructor]|].
    destruct (G SigP [] [t] (bare_ok T uid_simple) ltac:(intros y [<-|[]]; exact H) ltac:(discriminate)) as [G1 G2]. split; [constructor; [exact G1|constructor]|intros x [<-|[]]; exact G2].
  - split; [intros x [<-|[]]; exact Hr|]. split; [intros sh Hi; constructor; [apply Hs; exact Hi|constructor]|].
    destruct (G g l [t] ltac:(tauto) ltac:(intros y [<-|[]]; tauto) ltac:(discriminate)) as [G1 G2]. split; [constructor; [exact G1|constructor]|intros x [<-|[]]; exact G2].
  - split; [intros x [<-|[]]; exact Hr|]. split; [intros sh Hi; constructor; [apply Hs; exact Hi|constructor]|].
    destruct (G g l (t :: more) ltac:(tauto) ltac:(intros y Hy; apply H; exact Hy) ltac:(discriminate)) as [G1 G2]. split; [constructor; [exact G1|constructor]|intros x [<-|[]]; exact G2].
  - split; [intros x []|]. split; [intros sh _; constructor|]. split; [constructor|intros x []].
Qed.
Lemma mixed_results m n c hs c' : fits m -> mixed_stage n m c = Some (hs, c') -> exists hs1 hs2,
  mixed_html rr br m c = Some (hs1, c') /\ mixed_html rr fb m c = Some (hs2, c') /\
  (forall x, In x hs -> ProofSignedEnd.room x) /\
  (forall shelf, incl (numbered T n (mixed_stored m)) shelf -> Forall2 (RS T shelf) hs hs1) /\ Forall2 brs_pair hs1 hs2 /\ (forall x, In x hs2 -> ends x).
Proof.
  intros Hm E. assert (D : (exists p, m = Worded p) \/ (match m with Worded _ => False | _ => True end)) by (destruct m; [left; eexists; reflexivity|right; exact I|right; exact I|right; exact I]).
  destruct D as [(p & ->)|Hw].
  - cbn [mixed_stage mixed_html mixed_stored fits] in *. assert (hs = staged_part T n p) as -> by congruence. assert (c' = c) as -> by congruence. do 2 eexists. split; [reflexivity|]. split; [reflexivity|]. apply worded_results. exact Hm.
  - assert (E' : mixed_html rr br m c = Some (hs, c')) by (destruct m; [contradiction|exact E|exact E|exact E]). destruct (part_calm m c hs c' Hm Hw E') as (h & -> & Hc). exists [h], [h].
    split; [exact E'|]. split; [rewrite (html_any m fb br c Hw); exact E'|]. split; [intros x [<-|[]]; apply (calm_room T h Hc)|].
    split; [intros sh _; constructor; [apply RS_plain, (calm_uid T h Hc)|constructor]|]. split; [constructor; [|constructor]|intros x [<-|[]]; apply (calm_last T h Hc)].
    intros a b Hab _. apply brs_safe; [apply (calm_safe T h Hc)|exact Hab].
Qed.
Lemma stage_none m n c : mixed_stage n m c = None -> mixed_html rr fb m c = None.
Proof. destruct m; cbn [mixed_stage mixed_html]; intros E; [discriminate|exact E|discriminate|discriminate]. Qed.
Lemma stages_results ms : forall n c, Forall fits ms ->
  match mixed_stages n ms c with
  | None => mixed_page rr fb ms c = None
  | Some hs => exists hs1 hs2, mixed_page rr fb ms c = Some hs2 /\ (forall x, In x hs -> ProofSignedEnd.room x) /\
      (forall shelf, incl (numbered T n (flat_map mixed_stored ms)) shelf -> Forall2 (RS T shelf) hs hs1) /\ Forall2 brs_pair hs1 hs2 /\ (forall x, In x hs2 -> ends x)
  end.
Proof.
  induction ms as [|m ms IH]; intros n c H; cbn [mixed_stages mixed_page].
  { exists [], []. split; [reflexivity|]. split; [intros x []|]. split; [intros sh _; constructor|]. split; [constructor|intros x []]. }
  inversion H as [|? ? Hm Hms]; subst. destruct (mixed_stage n m c) as [[hs c']|] eqn:E; [|rewrite (stage_none m n c E); reflexivity].
  destruct (mixed_results m n c hs c' Hm E) as (a1 & a2 & A1 & A2 & A3 & A4 & A5 & A6). rewrite A2. specialize (IH (n + size (mixed_stored m)) c' Hms).
  destruct (mixed_stages (n + size (mixed_stored m)) ms c') as [l|]; [|rewrite IH; reflexivity]. destruct IH as (b1 & b2 & B2 & B3 & B4 & B5 & B6). rewrite B2. exists (a1 ++ b1), (a2 ++ b2).
  split; [reflexivity|]. split; [intros x Hx; apply in_app_or in Hx as [Hx|Hx]; auto|]. split.
  { intros sh Hi. cbn [flat_map] in Hi. rewrite numbered_app in Hi. apply Forall2_app; [apply A4|apply B4]; intros x Hx; apply Hi, in_or_app; auto. }
  split; [apply Forall2_app; auto|]. intros x Hx. apply in_app_or in Hx as [Hx|Hx]; auto.
Qed.
Lemma pairs_brs l1 l2 : Forall2 brs_pair l1 l2 -> brs br fb (sections l1) (sections l2).
Proof.
  intros H. induction H as [|x y l1 l2 Hxy H IH]; [constructor|]. destruct H as [|x' y' l1 l2 Hxy' H].
  - cbn [sections]. rewrite <- (app_nil_r x), <- (app_nil_r y). apply Hxy; [constructor|left; reflexivity].
  - rewrite !sections_cons by discriminate. apply Hxy; [|right; eexists; reflexivity]. apply brs_char; [discriminate|]. apply brs_char; [discriminate|]. exact IH.
Qed.

(** ** The source *)
Lemma fits_source m : fits m -> forall x, In x (mixed_pieces m) -> firm x /\ uid_free T x.
Proof.
  intros Hm x Hx. destruct m as [p|k items|t|l]; cbn [fits mixed_pieces] in *.
  - split; [eapply pieces_firm; eauto|eapply pieces_uid; eauto].
  - destruct Hx as [<-|[]]. destruct (source_piece T uid_simple not_lite k items Hm) as [_ P]. split; [apply (p_firm _ _ P)|apply (p_uid _ _ P)].
  - destruct Hx as [<-|[]]. destruct (table_piece T uid_simple not_lite t Hm) as [_ P]. split; [apply (p_firm _ _ P)|apply (p_uid _ _ P)].
  - destruct Hx as [<-|[]]. destruct (defs_piece T uid_simple not_lite l Hm) as [_ P]. split; [apply (p_firm _ _ P)|apply (p_uid _ _ P)].
Qed.
Lemma seen_fits m : mixed_ok T m -> fits (seen_mixed T m).
Proof. destruct m as [p|k items|t|l]; intros H; cbn [mixed_ok seen_mixed fits] in *; [apply seen_fit; auto|exact H|exact H|exact H]. Qed.
Lemma mixed_seen m : mixed_ok T m -> rr = true -> map esc (mixed_pieces m) = mixed_pieces (seen_mixed T m).
Proof.
  intros H Hr. destruct m as [p|k items|t|l]; cbn [mixed_ok seen_mixed mixed_pieces map] in *; [apply pieces_seen; auto| | |]; f_equal.
  - destruct (source_piece T uid_simple not_lite k items H) as [_ P]. apply (p_esc _ _ P Hr).
  - destruct (table_piece T uid_simple not_lite t H) as [_ P]. apply (p_esc _ _ P Hr).
  - destruct (defs_piece T uid_simple not_lite l H) as [_ P]. apply (p_esc _ _ P Hr).
Qed.
Lemma mixed_first m : mixed_ok T m -> exists c r l, mixed_pieces m = (c :: r) :: l /\ is_ws c = false.
Proof.
  intros H. destruct m as [p|k items|t|l]; cbn [mixed_ok mixed_pieces] in *; [apply (piece_first T p H)| | |].
  - destruct (source_piece T uid_simple not_lite k items H) as [_ P]. destruct (p_first _ _ P) as (c & r & -> & Hc). eauto.
  - destruct (table_piece T uid_simple not_lite t H) as [_ P]. destruct (p_first _ _ P) as (c & r & -> & Hc). eauto.
  - destruct (defs_piece T uid_simple not_lite l H) as [_ P]. destruct (p_first _ _ P) as (c & r & -> & Hc). eauto.
Qed.
Lemma seen_apart ms : apart ms -> apart (map (seen_mixed T) ms).
Proof.
  induction ms as [|m ms IH]; intros H; [exact I|]. destruct ms as [|m' ms]; [exact I|]. destruct H as [H1 H2]. cbn [map]. split; [|apply (IH H2)].
  assert (takes_more (seen_mixed T m) = takes_more m) as -> by (destruct m as [[]| | |]; reflexivity). assert (bare (seen_mixed T m') = bare m') as -> by (destruct m' as [[]| | |]; reflexivity). exact H1.
Qed.
Lemma prepare_mixed ms : Forall (mixed_ok T) ms -> prepare T (mixed_source ms) = mixed_source (map (seen_mixed T) ms).
Proof.
  intros H. rewrite Forall_forall in H. unfold prepare, mixed_source.
  assert (forall x, In x (flat_map mixed_pieces (map (seen_mixed T) ms)) -> firm x /\ uid_free T x) as F.
  { intros x Hx. apply in_flat_map in Hx. destruct Hx as (p & Hp & Hx). apply in_map_iff in Hp. destruct Hp as (q & <- & Hq). apply (fits_source _ (seen_fits q (H q Hq)) x Hx). }
  assert (normalize_newlines (if t_restricted T then encode_html (sections (flat_map mixed_pieces ms)) false false else sections (flat_map mixed_pieces ms)) = sections (flat_map mixed_pieces (map (seen_mixed T) ms))) as ->.
  { replace (if t_restricted T then encode_html (sections (flat_map mixed_pieces ms)) false false else sections (flat_map mixed_pieces ms)) with (sections (flat_map mixed_pieces (map (seen_mixed T) ms))).
    - rewrite normalize_tidy. apply tidy_sections. intros s Hs. apply F. exact Hs.
    - destruct (t_restricted T) eqn:Er.
      + fold (esc (sections (flat_map mixed_pieces ms))). rewrite esc_sections. f_equal. clear F. induction ms as [|m ms IH]; [reflexivity|]. cbn [map flat_map]. rewrite map_app, IH by (intros; apply H; right; auto). f_equal. symmetry. apply mixed_seen; auto. apply H. left. auto.
      + f_equal. rewrite (map_ext _ (fun p => p)) by (intros m; destruct m; cbn [seen_mixed]; [rewrite seen_id by exact Er|..]; reflexivity). rewrite map_id. reflexivity. }
  apply replace_absent; [apply uid_ne; auto|]. apply sections_uid; auto. intros x Hx. apply F. exact Hx.
Qed.

(** ** The document *)
Lemma parse_mixed fuel ms : ready T -> (1 < fuel)%nat -> Forall (mixed_ok T) ms -> apart ms ->
  match mixed_page rr fb (map (seen_mixed T) ms) from_one with
  | Some hs => exists s, parse W T fuel [] (mixed_source ms) = Ret (sections hs) s
  | None => parse W T fuel [] (mixed_source ms) = Panic Overflow
  end.
Proof.
  intros (_ & Ht & Hz) Hf Hms Hap. destruct ms as [|m0 ms0] eqn:Ems; [exists (new_state []); reflexivity|]. rewrite <- Ems in *.
  unfold parse, parse_m. assert (is_empty (trim (mixed_source ms)) = false) as ->.
  { rewrite Forall_forall in Hms. destruct (mixed_first m0) as (c & r & l & E & Hc); [apply Hms; rewrite Ems; left; reflexivity|]. unfold mixed_source. eapply trim_sections; [|exact Hc]. rewrite Ems. cbn [flat_map]. rewrite E. reflexivity. }
  rewrite prepare_mixed, Ht by exact Hms. set (ds := map (seen_mixed T) ms) in *.
  assert (Hd : Forall fits ds) by (apply Forall_forall; intros x Hx; apply in_map_iff in Hx as (q & <- & Hq); apply seen_fits; rewrite Forall_forall in Hms; auto).
  assert (Hda : apart ds) by (apply seen_apart; exact Hap). assert (Hne : ds <> []) by (unfold ds; rewrite Ems; discriminate). clearbody ds. clear Ems Hms Hap.
  pose proof (mixed_fold fuel Hf ds from_one (mk_bl [] [] false [] [] [] None [] false) (new_state []) Hd Hda ltac:(intros F; destruct F; reflexivity)) as MF.
  specialize (MF ltac:(destruct ds; [exact I|intros _; reflexivity]) ltac:(repeat split; apply cache_ok_nil) Hne). pose proof (stages_results ds 0 from_one Hd) as SR.
  change (ps_ref_index (new_state [])) with 0 in MF.
  assert (EB : block W T (graf W T fuel) (mixed_source ds) (new_state []) =
    bind (foldM (block_step W T (graf W T fuel)) (mk_bl [] [] false [] [] [] None [] false) (section_pieces (flat_map mixed_pieces ds)))
      (fun a => ret (List.concat (rev (if is_empty (bl_ext a) then bl_out a else push_last (bl_closing a) (bl_out a))))) (new_state [])).
  { unfold block, splitM, mixed_source. rewrite split_sections.
    - cbn [of_opt]. rewrite bind_ret. reflexivity.
    - destruct ds as [|d ds]; [congruence|]. cbn [flat_map]. destruct (mixed_some d) as (x & l & ->). discriminate.
    - intros x Hx. apply in_flat_map in Hx. destruct Hx as (p & Hp & Hx). rewrite Forall_forall in Hd. apply (fits_source p (Hd p Hp) x Hx). }
  destruct (mixed_stages 0 ds from_one) as [hs|].
  2:{ rewrite SR. rewrite bind_assoc. unfold bind at 1. rewrite EB. unfold bind at 1. rewrite MF. reflexivity. }
  destruct MF as (a & s1 & c1 & E1 & Ga & O1 & (C1 & C2 & _) & F1). destruct SR as (hs1 & hs2 & P2 & R1 & R2 & R3 & R4). rewrite P2.
  assert (Et : total a = sections hs) by (rewrite O1; unfold total; cbn [bl_out bl_ext bl_ws is_empty rev List.concat app]; destruct hs; reflexivity).
  assert (EB' : block W T (graf W T fuel) (mixed_source ds) (new_state []) = Ret (sections hs) s1) by (rewrite EB; unfold bind; rewrite E1, (closed_total a Ga), Et; reflexivity).
  assert (Hn : ps_notes s1 = []). { change (ps_notes s1) with (ps_notes (frame s1)). rewrite F1, frame_puts. destruct (puts_own T (flat_map mixed_stored ds) (frame (new_state []))) as (_ & _ & -> & _). reflexivity. }
  assert (Hsh : ps_shelf s1 = numbered T 0 (flat_map mixed_stored ds)).
  { change (ps_shelf s1) with (ps_shelf (frame s1)). rewrite F1, frame_puts, puts_shelf; [reflexivity|intros k []]. }
  assert (EN : place_note_lists T (sections hs) s1 = Ret (sections hs) s1).
  { unfold place_note_lists, modify, bind. cbn beta. rewrite Hn. cbv iota. apply no_match_replaceM. eapply never_ok; [|exact roomy_notelist]. unfold accepts. cbn [roomy au_start].
    rewrite <- (app_nil_r (sections _)). apply room_sections; [exact R1|]. apply SufNil. left. reflexivity. }
  assert (ER : retrieve fuel (sections hs) s1 = Ret (sections hs1) s1 /\ uid_free T (sections hs1)).
  { set (sh := numbered T 0 (flat_map mixed_stored ds)) in *. pose proof (numbered_tokens T (flat_map mixed_stored ds) 0 : tokens T sh) as Hto. pose proof (numbered_nodup T (flat_map mixed_stored ds) 0 : NoDup (map fst sh)) as Hnd.
    pose proof (RS_sections T uid_simple sh hs hs1 (R2 sh (fun x H => H))) as R. pose proof (RS_uid T uid_simple sh _ _ R) as U. pose proof (RS_pass T uid_simple sh Hto Hnd _ _ R) as Q1. split; [|exact U].
    unfold retrieve, bind, get. rewrite Hsh. assert (retrieve_pass sh (sections hs1) = sections hs1) as Q2 by (apply (pass_absent T uid_simple); auto).
    destruct fuel as [|[|f]]; [lia|lia|]. cbn [retrieve_loop]. rewrite Q1. destruct (seqb _ (sections hs)) eqn:Eq; [reflexivity|]. rewrite Q2. rewrite seqb_refl. reflexivity. }
  destruct ER as [ER U]. destruct (tags_absent T uid_simple _ U s1 C1 C2) as (c2 & Hc2 & E7). destruct (urls_absent W T uid_simple _ U (set_cache c2 s1) Hc2 C2) as (c3 & Hc3 & E8).
  exists (set_cache c3 (set_cache c2 s1)). unfold bind at 1. unfold bind at 1. rewrite EB', EN. unfold bind at 1. rewrite ER.
  rewrite replace_absent; [|pose proof (uid_ne _ uid_simple); destruct (t_uid T); [congruence|discriminate]|apply contains_more; exact U].
  unfold bind at 1. rewrite E7. unfold bind at 1. rewrite E8. unfold ret. f_equal.
  unfold finish. rewrite Hz. unfold replace_all, segs. erewrite brs_pattern; [|apply br_is|apply pairs_brs; exact R3]. apply sections_end. exact R4.
Qed.
End Mixed.
Lemma mixed_documents W T fuel ms : ready T -> t_lite T = false -> (1 < fuel)%nat -> Forall (mixed_ok T) ms -> apart ms ->
  match mixed_page (t_restricted T) (line_break T) (map (seen_mixed T) ms) from_one with
  | Some hs => exists s, parse W T fuel [] (mixed_source ms) = Ret (sections hs) s
  | None => parse W T fuel [] (mixed_source ms) = Panic Overflow
  end.
Proof. intros Hr Hl Hf H Ha. rewrite <- final_break. apply parse_mixed; auto. apply Hr. Qed.
