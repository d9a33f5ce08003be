(** The replacements of symbols made of words. *)
From Verif Require Import Str Unicode Regex RegexParse RegexSnips RegexTheory RegexAuto RegexPath Lib ModelBase ModelInline ProofPlain ProofParas ProofText SpecPlain SpecText SpecSymbols ProofImages ProofGlyphs ProofSymbolAuto ProofSymbolStep ProofSymbolHits.
#[local] Arguments u : simpl never.

Ltac by_step x0 x1 := intros Hp; eapply step_all with (apart := x0) (H := x1); [vm_compute; reflexivity|vm_compute; reflexivity|vm_compute; reflexivity| |exact Hp];
  let s := fresh "s" in let Hs := fresh "Hs" in intros s Hs; destruct s; try discriminate Hs; clear Hs; cbn [proper_symbol].
Ltac tr_in := apply apart_in; vm_compute; tauto.
Ltac one_step x := eapply PathCons with (q' := x); [reflexivity|tr_in|first [apply in_ch | eassumption]|].
Lemma small_in w c : small_word w -> In c w -> in_cls one_az c = true.
Proof. intros [_ H] Hc. apply in_az, H, Hc. Qed.
Lemma az_cls k c : forallb (in_cls k) (map N.of_nat (seq 97 26)) = true -> in_cls one_az c = true -> in_cls k c = true.
Proof. intros H Hc. apply (az_all (in_cls k) H). apply in_az. exact Hc. Qed.
Lemma dg_cls k c : forallb (in_cls k) (map N.of_nat (seq 48 10)) = true -> in_cls one_09 c = true -> in_cls k c = true.
Proof. intros H Hc. apply (dg_all (in_cls k) H). apply in_09. exact Hc. Qed.

(** ** Apostrophes inside of words *)
Definition PL_re : re := RCls (mk_cls false [CProp false PL]).
Lemma apos_match b c d v : in_cls one_az c = true -> in_cls one_az d = true ->
  match_at (rx_re GL_APOS) b ([c; 39; d] ++ v) = Some (mk_mst (d :: 39 :: c :: b) v [(2%nat, (d :: v, v)); (1%nat, (c :: 39 :: d :: v, 39 :: d :: v))]).
Proof.
  intros Hc Hd. let r := eval vm_compute in (rx_re GL_APOS) in change (rx_re GL_APOS) with r. unfold match_at. cbn [app].
  rewrite m_seq, m_group. apply m_alt_l, m_alt_l. rewrite m_cls. rewrite (az_cls _ c) by (vm_compute; reflexivity || exact Hc). cbn [m_before m_after m_caps].
  rewrite m_seq, m_cls. change (in_cls {| c_neg := false; c_items := [CRange 39 39] |} 39) with true. cbv iota beta. rewrite m_group. apply m_alt_l. rewrite m_cls.
  rewrite (az_cls _ d) by (vm_compute; reflexivity || exact Hd). reflexivity.
Qed.
Definition apos_apart : list trans :=
  [(60, ch 32, 61); (60, ch 32, 62); (61, one_az, 61); (61, one_az, 62); (62, one_az, 63); (63, ch 39, 64); (64, one_az, 65); (65, one_az, 65); (65, ch 32, 8)]%nat.
Lemma step_apos first rest : proper_text first rest -> replace_tmpl (rx_re GL_APOS) (u "$1&#8217;$2") (with_symbols (at_stage 2) first rest) = with_symbols (at_stage 3) first rest.
Proof.
  by_step apos_apart [62%nat]. intros [Ha Hb].
  change (at_stage 2 (Apostrophe a b)) with (a ++ [39] ++ b). change (at_stage 3 (Apostrophe a b)) with (a ++ u "&#8217;" ++ b).
  destruct (last_of a (proj1 Ha)) as (a0 & c & ->). destruct b as [|d b]; [destruct Hb; congruence|].
  assert (in_cls one_az c = true) as Hc by (eapply small_in; [exact Ha|apply in_or_app; right; left; reflexivity]).
  assert (in_cls one_az d = true) as Hd by (eapply small_in; [exact Hb|left; reflexivity]).
  assert (forall x, In x a0 -> in_cls one_az x = true) as Ha0 by (intros; eapply small_in; [exact Ha|apply in_or_app; left; auto]).
  assert (forall x, In x b -> in_cls one_az x = true) as Hb0 by (intros; eapply small_in; [exact Hb|right; auto]).
  replace ((32 :: (a0 ++ [c]) ++ [39] ++ d :: b) ++ [32]) with ((32 :: a0) ++ [c; 39; d] ++ (b ++ [32])) by (cbn [app]; rewrite <- !app_assoc; reflexivity).
  replace ((32 :: (a0 ++ [c]) ++ u "&#8217;" ++ d :: b) ++ [32]) with ((32 :: a0) ++ ([c] ++ u "&#8217;" ++ [d]) ++ (b ++ [32])) by (cbn [app]; rewrite <- !app_assoc; reflexivity).
  apply hit_step with (H := [62%nat]) (q1 := 62%nat) (q2 := 65%nat); [vm_compute; reflexivity|discriminate| | | |].
  - apply fork_path with (x := 61%nat) (k := ch 32) (k' := one_az); auto using in_ch; tr_in.
  - one_step 63%nat. one_step 64%nat. one_step 65%nat. constructor.
  - eapply path_app with (q' := 65%nat); [apply path_many with (k := one_az); auto; tr_in|]. one_step 8%nat. constructor.
  - intros b' v. eexists. rewrite apos_match by auto. split; [reflexivity|]. split; [reflexivity|]. cbn [m_caps].
    match goal with |- expand _ ?h = _ => change (expand (u "$1&#8217;$2") h) with (group_text (u "1") h ++ u "&#8217;" ++ group_text (u "2") h ++ []) end.
    erewrite group_1, group_2; [|eapply (cap_is _ _ [d]); reflexivity|eapply (cap_is _ _ [c]); reflexivity]. rewrite app_nil_r. reflexivity.
Qed.

(** ** Quotes *)
Definition close_apart (q : N) : list trans :=
  [(60, ch 32, 61); (61, ch q, 62); (61, ch q, 63); (62, one_az, 62); (62, one_az, 63); (63, one_az, 64); (64, ch q, 65); (65, ch 32, 8)]%nat.
Lemma sclose_match b c v : in_cls one_az c = true ->
  match_at (rx_re GL_SCLOSE) b ([c; 39] ++ [32] ++ v) = Some (mk_mst (39 :: c :: b) (32 :: v) [(1%nat, (c :: 39 :: 32 :: v, 39 :: 32 :: v))]).
Proof.
  intros Hc. let r := eval vm_compute in (rx_re GL_SCLOSE) in change (rx_re GL_SCLOSE) with r. unfold match_at. cbn [app].
  rewrite m_seq, m_group, m_cls. rewrite (az_cls _ c) by (vm_compute; reflexivity || exact Hc). vm_compute. reflexivity.
Qed.
Lemma dclose_match b c v : in_cls one_az c = true ->
  match_at (rx_re GL_DCLOSE) b ([c; 34] ++ [32] ++ v) = Some (mk_mst (34 :: c :: b) (32 :: v) [(1%nat, (c :: 34 :: 32 :: v, 34 :: 32 :: v))]).
Proof.
  intros Hc. let r := eval vm_compute in (rx_re GL_DCLOSE) in change (rx_re GL_DCLOSE) with r. unfold match_at. cbn [app].
  rewrite m_seq, m_group, m_cls. rewrite (az_cls _ c) by (vm_compute; reflexivity || exact Hc). vm_compute. reflexivity.
Qed.
Lemma step_sclose first rest : proper_text first rest -> replace_tmpl (rx_re GL_SCLOSE) (u "$1&#8217;") (with_symbols (at_stage 5) first rest) = with_symbols (at_stage 6) first rest.
Proof.
  by_step (close_apart 39) [63%nat]. intros Ha.
  change (at_stage 5 (Single w)) with ([39] ++ w ++ [39]). change (at_stage 6 (Single w)) with ([39] ++ w ++ u "&#8217;").
  destruct (last_of w (proj1 Ha)) as (a0 & c & ->).
  assert (in_cls one_az c = true) as Hc by (eapply small_in; [exact Ha|apply in_or_app; right; left; reflexivity]).
  assert (forall x, In x a0 -> in_cls one_az x = true) as Ha0 by (intros; eapply small_in; [exact Ha|apply in_or_app; left; auto]).
  replace ((32 :: [39] ++ (a0 ++ [c]) ++ [39]) ++ [32]) with ((32 :: 39 :: a0) ++ [c; 39] ++ [32]) by (cbn [app]; rewrite <- !app_assoc; reflexivity).
  replace ((32 :: [39] ++ (a0 ++ [c]) ++ u "&#8217;") ++ [32]) with ((32 :: 39 :: a0) ++ ([c] ++ u "&#8217;") ++ [32]) by (cbn [app]; rewrite <- !app_assoc; reflexivity).
  apply hit_step with (H := [63%nat]) (q1 := 63%nat) (q2 := 65%nat); [vm_compute; reflexivity|discriminate| | | |].
  - one_step 61%nat. apply fork_path with (x := 62%nat) (k := ch 39) (k' := one_az); auto using in_ch; tr_in.
  - one_step 64%nat. one_step 65%nat. constructor.
  - one_step 8%nat. constructor.
  - intros b' v. eexists. rewrite sclose_match by auto. split; [reflexivity|]. split; [reflexivity|]. cbn [m_caps].
    match goal with |- expand _ ?h = _ => change (expand (u "$1&#8217;") h) with (group_text (u "1") h ++ u "&#8217;") end.
    erewrite group_1; [|eapply (cap_is _ _ [c]); reflexivity]. reflexivity.
Qed.
Lemma step_dclose first rest : proper_text first rest -> replace_tmpl (rx_re GL_DCLOSE) (u "$1&#8221;") (with_symbols (at_stage 8) first rest) = with_symbols (at_stage 9) first rest.
Proof.
  by_step (close_apart 34) [63%nat]. intros Ha.
  change (at_stage 8 (Double w)) with ([34] ++ w ++ [34]). change (at_stage 9 (Double w)) with ([34] ++ w ++ u "&#8221;").
  destruct (last_of w (proj1 Ha)) as (a0 & c & ->).
  assert (in_cls one_az c = true) as Hc by (eapply small_in; [exact Ha|apply in_or_app; right; left; reflexivity]).
  assert (forall x, In x a0 -> in_cls one_az x = true) as Ha0 by (intros; eapply small_in; [exact Ha|apply in_or_app; left; auto]).
  replace ((32 :: [34] ++ (a0 ++ [c]) ++ [34]) ++ [32]) with ((32 :: 34 :: a0) ++ [c; 34] ++ [32]) by (cbn [app]; rewrite <- !app_assoc; reflexivity).
  replace ((32 :: [34] ++ (a0 ++ [c]) ++ u "&#8221;") ++ [32]) with ((32 :: 34 :: a0) ++ ([c] ++ u "&#8221;") ++ [32]) by (cbn [app]; rewrite <- !app_assoc; reflexivity).
  apply hit_step with (H := [63%nat]) (q1 := 63%nat) (q2 := 65%nat); [vm_compute; reflexivity|discriminate| | | |].
  - one_step 61%nat. apply fork_path with (x := 62%nat) (k := ch 34) (k' := one_az); auto using in_ch; tr_in.
  - one_step 64%nat. one_step 65%nat. constructor.
  - one_step 8%nat. constructor.
  - intros b' v. eexists. rewrite dclose_match by auto. split; [reflexivity|]. split; [reflexivity|]. cbn [m_caps].
    match goal with |- expand _ ?h = _ => change (expand (u "$1&#8221;") h) with (group_text (u "1") h ++ u "&#8221;") end.
    erewrite group_1; [|eapply (cap_is _ _ [c]); reflexivity]. reflexivity.
Qed.
Definition open_items (q : N) (close : str) : list item := az 63 ++ reference close.
Definition open_apart (q : N) (close : str) : list trans := [(60, ch 32, 61); (61, ch q, 62)]%nat ++ chain 62 (open_items q close) 8.
Ltac in_apart := let t := fresh "t" in let Ht := fresh "Ht" in intros t Ht; split; [apply apart_in; apply in_or_app; right; exact Ht|vm_compute in Ht; repeat destruct Ht as [<-|Ht]; try reflexivity; destruct Ht].
Lemma step_sopen first rest : proper_text first rest -> replace_tmpl (rx_re GL_SOPEN) (u "&#8216;") (with_symbols (at_stage 6) first rest) = with_symbols (at_stage 7) first rest.
Proof.
  by_step (open_apart 39 (u "&#8217;")) [61%nat]. intros Ha.
  change (at_stage 6 (Single w)) with ([39] ++ w ++ u "&#8217;"). change (at_stage 7 (Single w)) with (u "&#8216;" ++ w ++ u "&#8217;").
  replace ((32 :: [39] ++ w ++ u "&#8217;") ++ [32]) with ([32] ++ [39] ++ (w ++ u "&#8217;") ++ [32]) by reflexivity.
  replace ((32 :: u "&#8216;" ++ w ++ u "&#8217;") ++ [32]) with ([32] ++ u "&#8216;" ++ (w ++ u "&#8217;") ++ [32]) by reflexivity.
  apply hit_step with (H := [61%nat]) (q1 := 61%nat) (q2 := 62%nat); [vm_compute; reflexivity|discriminate| | | |].
  - one_step 61%nat. constructor.
  - one_step 62%nat. constructor.
  - apply chain_path with (its := open_items 39 (u "&#8217;")); [apply reads_app; [apply reads_az; auto|apply reads_reference; vm_compute; lia]|in_apart].
  - intros b v. eexists. split; [vm_compute; reflexivity|split; reflexivity].
Qed.
Lemma step_dopen first rest : proper_text first rest -> replace_tmpl (rx_re GL_DOPEN) (u "&#8220;") (with_symbols (at_stage 9) first rest) = with_symbols (at_stage 10) first rest.
Proof.
  by_step (open_apart 34 (u "&#8221;")) [61%nat]. intros Ha.
  change (at_stage 9 (Double w)) with ([34] ++ w ++ u "&#8221;"). change (at_stage 10 (Double w)) with (u "&#8220;" ++ w ++ u "&#8221;").
  replace ((32 :: [34] ++ w ++ u "&#8221;") ++ [32]) with ([32] ++ [34] ++ (w ++ u "&#8221;") ++ [32]) by reflexivity.
  replace ((32 :: u "&#8220;" ++ w ++ u "&#8221;") ++ [32]) with ([32] ++ u "&#8220;" ++ (w ++ u "&#8221;") ++ [32]) by reflexivity.
  apply hit_step with (H := [61%nat]) (q1 := 61%nat) (q2 := 62%nat); [vm_compute; reflexivity|discriminate| | | |].
  - one_step 61%nat. constructor.
  - one_step 62%nat. constructor.
  - apply chain_path with (its := open_items 34 (u "&#8221;")); [apply reads_app; [apply reads_az; auto|apply reads_reference; vm_compute; lia]|in_apart].
  - intros b v. eexists. split; [vm_compute; reflexivity|split; reflexivity].
Qed.

(** ** Ellipses *)
Definition dots_apart : list trans :=
  [(60, ch 32, 61); (60, ch 32, 62); (61, one_az, 61); (61, one_az, 62); (62, one_az, 63); (63, ch 46, 64); (64, ch 46, 65); (65, ch 46, 66); (66, ch 32, 8)]%nat.
Lemma dots_match b c v : in_cls one_az c = true ->
  match_at (rx_re GL_ELLIPSIS) b ([c; 46; 46; 46] ++ v) = Some (mk_mst (46 :: 46 :: 46 :: c :: b) v [(1%nat, (c :: 46 :: 46 :: 46 :: v, 46 :: 46 :: 46 :: v))]).
Proof.
  intros Hc. let r := eval vm_compute in (rx_re GL_ELLIPSIS) in change (rx_re GL_ELLIPSIS) with r. unfold match_at. cbn [app].
  rewrite m_seq, m_group, m_alt, m_cls. rewrite (az_cls _ c) by (vm_compute; reflexivity || exact Hc). vm_compute. reflexivity.
Qed.
Lemma step_dots first rest : proper_text first rest -> replace_tmpl (rx_re GL_ELLIPSIS) (u "$1&#8230;") (with_symbols (at_stage 10) first rest) = with_symbols (at_stage 11) first rest.
Proof.
  by_step dots_apart [62%nat; 63%nat]. intros Ha.
  change (at_stage 10 (Ellipsis w)) with (w ++ [46; 46; 46]). change (at_stage 11 (Ellipsis w)) with (w ++ u "&#8230;").
  destruct (last_of w (proj1 Ha)) as (a0 & c & ->).
  assert (in_cls one_az c = true) as Hc by (eapply small_in; [exact Ha|apply in_or_app; right; left; reflexivity]).
  assert (forall x, In x a0 -> in_cls one_az x = true) as Ha0 by (intros; eapply small_in; [exact Ha|apply in_or_app; left; auto]).
  replace ((32 :: (a0 ++ [c]) ++ [46; 46; 46]) ++ [32]) with ((32 :: a0) ++ [c; 46; 46; 46] ++ [32]) by (cbn [app]; rewrite <- !app_assoc; reflexivity).
  replace ((32 :: (a0 ++ [c]) ++ u "&#8230;") ++ [32]) with ((32 :: a0) ++ ([c] ++ u "&#8230;") ++ [32]) by (cbn [app]; rewrite <- !app_assoc; reflexivity).
  apply hit_step with (H := [62%nat; 63%nat]) (q1 := 62%nat) (q2 := 66%nat); [vm_compute; reflexivity|discriminate| | | |].
  - apply fork_path with (x := 61%nat) (k := ch 32) (k' := one_az); auto using in_ch; tr_in.
  - one_step 63%nat. one_step 64%nat. one_step 65%nat. one_step 66%nat. constructor.
  - one_step 8%nat. constructor.
  - intros b' v. eexists. rewrite dots_match by auto. split; [reflexivity|]. split; [reflexivity|]. cbn [m_caps].
    match goal with |- expand _ ?h = _ => change (expand (u "$1&#8230;") h) with (group_text (u "1") h ++ u "&#8230;") end.
    erewrite group_1; [|eapply (cap_is _ _ [c]); reflexivity]. reflexivity.
Qed.

(** ** Numbers *)
Lemma skip_cls k t b cs K : stops k t -> m (RAlt (RCls k) REps) (mk_mst b t cs) K = K (mk_mst b t cs).
Proof. intros H. apply skip_alt. destruct t as [|c t]; [reflexivity|]. rewrite m_cls. cbn [stops] in H. rewrite H. reflexivity. Qed.
Lemma skip_seq k r t b cs K : stops k t -> m (RAlt (RSeq (RCls k) r) REps) (mk_mst b t cs) K = K (mk_mst b t cs).
Proof. intros H. apply skip_alt. rewrite m_seq. destruct t as [|c t]; [reflexivity|]. rewrite m_cls. cbn [stops] in H. rewrite H. reflexivity. Qed.
Lemma digits_stop k w t : numeral w -> forallb (fun c => negb (in_cls k c)) (map N.of_nat (seq 48 10)) = true -> stops k (w ++ t).
Proof.
  intros [H1 H2] Hk. destruct w as [|c w]; [congruence|]. cbn [app stops]. apply negb_true_iff. apply (dg_all (fun c => negb (in_cls k c)) Hk). apply H2. left. reflexivity.
Qed.
Lemma digits_in k w : numeral w -> forallb (in_cls k) (map N.of_nat (seq 48 10)) = true -> forall c, In c w -> in_cls k c = true.
Proof. intros [_ H] Hk c Hc. apply (dg_all (in_cls k) Hk). apply H, Hc. Qed.
Definition R09 : re := RCls (mk_cls false [CRange 48 57]).
Definition DIM_look : re :=
  RSeq (RAlt (RCls (mk_cls false [CRange 43 43; CRange 45 45])) REps)
    (RSeq (RAlt (RSeq (RCls (mk_cls false [CProp false PSc])) (RStar true (RCls (mk_cls false [CProp false PSpace])))) REps)
      (RSeq (RStar true R09) (RSeq (RAlt (RCls (mk_cls false [CRange 46 46])) REps) (RSeq R09 (RStar true R09))))).
Definition DIM_shape : re :=
  RSeq (RAlt (RAssert WB) (RBack (mk_cls false [CRange 120 120; CRange 88 88])))
    (RSeq (RGroup 1 (RSeq (RSeq R09 (RStar true R09)) (RSeq (RAlt (RCls (mk_cls false [CRange 93 93; CRange 41 41])) REps)
             (RSeq (RAlt (RCls (mk_cls false [CRange 39 39; CRange 34 34])) REps) (RAlt (RCls (mk_cls false [CRange 32 32])) REps)))))
      (RSeq (RCls (mk_cls false [CRange 120 120; CRange 88 88]))
        (RSeq (RGroup 2 (RSeq (RAlt (RCls (mk_cls false [CRange 32 32])) REps) (RAlt (RCls (mk_cls false [CRange 91 91; CRange 40 40])) REps))) (RLook DIM_look)))).
Lemma dim_re : rx_re GL_DIM = DIM_shape.
Proof. vm_compute. reflexivity. Qed.
Lemma dim_look b w v cs : numeral w -> exists s, m DIM_look (mk_mst b (w ++ 32 :: v) cs) Some = Some s.
Proof.
  intros Hw. unfold DIM_look. rewrite m_seq, skip_cls by (apply digits_stop; [exact Hw|vm_compute; reflexivity]).
  rewrite m_seq, skip_seq by (apply digits_stop; [exact Hw|vm_compute; reflexivity]). rewrite m_seq.
  destruct (last_of w (proj1 Hw)) as (w0 & d & ->). rewrite <- app_assoc. change ([d] ++ 32 :: v) with (d :: 32 :: v).
  assert (forall c, In c (w0 ++ [d]) -> in_cls (mk_cls false [CRange 48 57]) c = true) as Hd by (apply digits_in; [exact Hw|vm_compute; reflexivity]).
  assert (in_cls (mk_cls false [CRange 48 57]) d = true) as Hd1 by (apply Hd, in_or_app; right; left; reflexivity).
  eexists. apply m_star_back; [apply forallb_forall; intros x Hx; apply Hd, in_or_app; auto|exact Hd1|vm_compute; reflexivity|vm_compute; reflexivity|].
  rewrite m_seq, skip_cls.
  - rewrite m_seq. unfold R09. rewrite m_cls, Hd1. apply (m_star_greedy _ _ _ [] _ (32 :: v)); [reflexivity|vm_compute; reflexivity|reflexivity].
  - apply (digits_stop _ [d] (32 :: v)); [split; [discriminate|intros c [<-|[]]; apply (proj2 Hw), in_or_app; right; left; reflexivity]|vm_compute; reflexivity].
Qed.
Lemma dim_match b x y v : numeral x -> numeral y -> exists B, match_at (rx_re GL_DIM) (32 :: b) ((x ++ [120]) ++ (y ++ [32]) ++ v) =
  Some (mk_mst B ((y ++ [32]) ++ v) [(2%nat, ((y ++ [32]) ++ v, (y ++ [32]) ++ v)); (1%nat, (x ++ 120 :: (y ++ [32]) ++ v, 120 :: (y ++ [32]) ++ v))]).
Proof.
  intros Hx Hy. rewrite dim_re. unfold match_at, DIM_shape.
  assert (forall c, In c x -> in_cls (mk_cls false [CRange 48 57]) c = true) as Hd by (apply digits_in; [exact Hx|vm_compute; reflexivity]).
  rewrite <- app_assoc. change ([120] ++ (y ++ [32]) ++ v) with (120 :: (y ++ [32]) ++ v). set (rest := (y ++ [32]) ++ v).
  assert (forall k, forallb (fun c => negb (in_cls k c)) (map N.of_nat (seq 48 10)) = true -> stops k rest) as Hs.
  { intros k Hk. unfold rest. rewrite <- app_assoc. apply digits_stop; auto. }
  destruct x as [|d x]; [destruct Hx; congruence|]. eexists. rewrite m_seq. apply m_alt_l. rewrite m_assert. cbn [app].
  assert (assert_holds WB (32 :: b) (d :: x ++ 120 :: rest) = true) as ->.
  { cbn [assert_holds head_word]. rewrite (dg_all (has_prop PWord) ltac:(vm_compute; reflexivity) d) by (apply (proj2 Hx); left; reflexivity). vm_compute. reflexivity. }
  rewrite m_seq, m_group, m_seq, m_seq. unfold R09 at 1. rewrite m_cls, Hd by (left; reflexivity).
  apply m_star_greedy; [apply forallb_forall; intros c Hc; apply Hd; right; exact Hc|vm_compute; reflexivity|].
  rewrite m_seq, skip_cls by (vm_compute; reflexivity). rewrite m_seq, skip_cls by (vm_compute; reflexivity). rewrite skip_cls by (vm_compute; reflexivity).
  cbn [m_before m_after m_caps]. rewrite m_seq, m_cls. change (in_cls {| c_neg := false; c_items := [CRange 120 120; CRange 88 88] |} 120) with true. cbv iota beta.
  rewrite m_seq, m_group, m_seq, skip_cls by (apply Hs; vm_compute; reflexivity). rewrite skip_cls by (apply Hs; vm_compute; reflexivity). cbn [m_before m_after m_caps].
  rewrite m_look. unfold rest at 1. rewrite <- app_assoc. cbn [app]. match goal with |- context [m DIM_look (mk_mst ?B _ ?cs) Some] => destruct (dim_look B y v cs Hy) as [s0 ->] end. reflexivity.
Qed.
Definition times_items : list item := dg 62 ++ chr 120 63 ++ dg 64.
Definition times_apart : list trans := [(60, ch 32, 61)]%nat ++ chain 61 times_items 8.
Lemma step_times first rest : proper_text first rest -> replace_tmpl (rx_re GL_DIM) (u "$1&#215;$2") (with_symbols (at_stage 1) first rest) = with_symbols (at_stage 2) first rest.
Proof.
  by_step times_apart [61%nat; 62%nat]. intros [Ha Hb].
  change (at_stage 1 (Times a b)) with (a ++ [120] ++ b). change (at_stage 2 (Times a b)) with (a ++ u "&#215;" ++ b).
  replace ((32 :: a ++ [120] ++ b) ++ [32]) with ([32] ++ (a ++ [120]) ++ (b ++ [32])) by (cbn [app]; rewrite <- !app_assoc; reflexivity).
  replace ((32 :: a ++ u "&#215;" ++ b) ++ [32]) with ([32] ++ (a ++ u "&#215;") ++ (b ++ [32])) by (cbn [app]; rewrite <- !app_assoc; reflexivity).
  assert (forall c, In c a -> in_cls one_09 c = true) as Da by (intros c Hc; apply in_09, (proj2 Ha), Hc).
  apply hit_step with (H := [61%nat; 62%nat]) (q1 := 61%nat) (q2 := 63%nat); [vm_compute; reflexivity|destruct a; discriminate| | | |].
  - one_step 61%nat. constructor.
  - destruct a as [|d a]; [destruct Ha; congruence|]. cbn [app]. eapply PathCons with (q' := 62%nat); [reflexivity|tr_in|apply Da; left; reflexivity|].
    eapply path_app with (q' := 62%nat); [apply path_many with (k := one_09); [tr_in|reflexivity|intros; apply Da; right; auto]|]. one_step 63%nat. constructor.
  - apply chain_path with (its := dg 64); [apply reads_dg; auto|]. intros t Ht. split; [apply apart_in; vm_compute in Ht |- *; tauto|vm_compute in Ht; repeat destruct Ht as [<-|Ht]; try reflexivity; destruct Ht].
  - intros b' v. cbn [rev app]. destruct (dim_match b' a b v Ha Hb) as (B & E). rewrite E. eexists. split; [reflexivity|]. split; [reflexivity|]. cbn [m_caps].
    match goal with |- expand _ ?h = _ => change (expand (u "$1&#215;$2") h) with (group_text (u "1") h ++ u "&#215;" ++ group_text (u "2") h ++ []) end.
    erewrite group_1, group_2; [|eapply (cap_is _ _ []); reflexivity|eapply (cap_is _ _ a); reflexivity]. rewrite app_nil_r. reflexivity.
Qed.
Definition RNd : re := RCls (mk_cls false [CProp false PNd]).
Lemma backin_match b w v : numeral w -> exists B, match_at (rx_re GL_BACKIN) b ((32 :: 39 :: w) ++ [32] ++ v) =
  Some (mk_mst B (32 :: v) [(2%nat, (w ++ 32 :: v, 32 :: v)); (1%nat, (32 :: 39 :: w ++ 32 :: v, 39 :: w ++ 32 :: v))]).
Proof.
  intros Hw. let r := eval vm_compute in (rx_re GL_BACKIN) in change (rx_re GL_BACKIN) with r. unfold match_at. destruct w as [|d w]; [destruct Hw; congruence|]. eexists. cbn [app].
  assert (forall c, In c (d :: w) -> in_cls (mk_cls false [CProp false PNd]) c = true) as Hd by (apply digits_in; [exact Hw|vm_compute; reflexivity]).
  rewrite m_seq, m_group, m_cls. change (in_cls {| c_neg := false; c_items := [CProp false PSpace] |} 32) with true. cbn [m_before m_after m_caps]. cbv iota beta.
  rewrite m_seq, m_cls. change (in_cls {| c_neg := false; c_items := [CRange 39 39] |} 39) with true. cbv iota beta. rewrite m_seq, m_group, m_seq, m_seq.
  rewrite m_cls, Hd by (left; reflexivity).
  apply m_star_greedy; [apply forallb_forall; intros c Hc; apply Hd; right; exact Hc|vm_compute; reflexivity|].
  rewrite skip_alt by (vm_compute; reflexivity). cbn [m_before m_after m_caps]. rewrite m_seq, m_assert.
  match goal with |- context [assert_holds WB ?B (32 :: v)] => assert (assert_holds WB B (32 :: v) = true) as -> end.
  { assert (exists x r, rev w ++ d :: 39 :: 32 :: b = x :: r /\ In x (d :: w)) as (x & r & -> & Hx).
    { destruct (rev w) as [|x r] eqn:E; [exists d; eexists; split; [reflexivity|left; reflexivity]|]. exists x. eexists. split; [reflexivity|]. right. apply in_rev. rewrite E. left. reflexivity. }
    cbn [assert_holds head_word]. rewrite (dg_all (has_prop PWord) ltac:(vm_compute; reflexivity) x) by (apply (proj2 Hw); exact Hx). vm_compute. reflexivity. }
  rewrite m_nlook. match goal with |- match ?x with _ => _ end = _ => assert (x = None) as -> by (vm_compute; reflexivity) end. reflexivity.
Qed.
Definition decade_apart : list trans := [(60, ch 32, 61)]%nat ++ chain 61 (chr 39 62 ++ [(one_09, false, 63%nat)] ++ dg 64) 8.
Lemma step_decade first rest : proper_text first rest -> replace_tmpl (rx_re GL_BACKIN) (u "$1&#8217;$2") (with_symbols (at_stage 3) first rest) = with_symbols (at_stage 4) first rest.
Proof.
  by_step decade_apart [60%nat]. intros [Hw Hl].
  change (at_stage 3 (Decade d)) with (39 :: d). change (at_stage 4 (Decade d)) with (u "&#8217;" ++ d).
  replace ((32 :: 39 :: d) ++ [32]) with ([] ++ (32 :: 39 :: d) ++ [32]) by reflexivity.
  replace ((32 :: u "&#8217;" ++ d) ++ [32]) with ([] ++ (32 :: u "&#8217;" ++ d) ++ [32]) by reflexivity.
  assert (forall c, In c d -> in_cls one_09 c = true) as Da by (intros c Hc; apply in_09, (proj2 Hw), Hc).
  apply hit_step with (H := [60%nat]) (q1 := 60%nat) (q2 := 64%nat); [vm_compute; reflexivity|discriminate| | | |].
  - constructor.
  - one_step 61%nat. one_step 62%nat. destruct d as [|x [|y d]]; cbn [List.length] in Hl; [lia|lia|].
    eapply PathCons with (q' := 63%nat); [reflexivity|tr_in|apply Da; left; reflexivity|]. eapply PathCons with (q' := 64%nat); [reflexivity|tr_in|apply Da; right; left; reflexivity|].
    apply path_many with (k := one_09); [tr_in|reflexivity|intros; apply Da; right; right; auto].
  - one_step 8%nat. constructor.
  - intros b' v. cbn [rev]. rewrite app_nil_l. destruct (backin_match b' d v Hw) as (B & E). rewrite E. eexists. split; [reflexivity|]. split; [reflexivity|]. cbn [m_caps].
    match goal with |- expand _ ?h = _ => change (expand (u "$1&#8217;$2") h) with (group_text (u "1") h ++ u "&#8217;" ++ group_text (u "2") h ++ []) end.
    erewrite group_1, group_2; [|eapply (cap_is _ _ d); reflexivity|eapply (cap_is _ _ [32]); reflexivity]. rewrite app_nil_r. reflexivity.
Qed.

(** ** Ampersands *)
Definition any_char : cls := mk_cls true [].
(** A word and a blank, in any text. *)
Definition word_blank : auto := mk_auto [(2, any_char, 2); (2, any_char, 0); (0, one_az, 1); (1, one_az, 1); (1, ch 32, 2)]%nat 2%nat [2%nat].
Lemma any_suf v : Suf word_blank 2 v.
Proof. induction v as [|c v IH]; [constructor; left; reflexivity|]. apply (SufCons word_blank 2 any_char 2 c v); auto. left. reflexivity. Qed.
Lemma any_pre b : RegexAuto.Pre word_blank 2 b.
Proof. induction b as [|c b IH]; [constructor|]. apply (PreCons word_blank 2 any_char 2 c b); auto. left. reflexivity. Qed.
Lemma word_suf w v : small_word w -> Suf word_blank 0 (w ++ [32] ++ v).
Proof.
  intros [Hn Hw]. destruct w as [|c w]; [congruence|]. cbn [app]. apply (SufCons word_blank 0 one_az 1); [right; right; left; reflexivity|apply in_az, Hw; left; reflexivity|].
  assert (forall d, In d w -> 97 <= d <= 122) as Hw' by (intros; apply Hw; right; auto). clear Hw Hn. induction w as [|d w IH]; cbn [app].
  - apply (SufCons word_blank 1 (ch 32) 2); [do 4 right; left; reflexivity|apply in_ch|apply any_suf].
  - apply (SufCons word_blank 1 one_az 1); [do 3 right; left; reflexivity|apply in_az, Hw'; left; reflexivity|]. apply IH. intros; apply Hw'; right; auto.
Qed.
Definition lone_not : re := match rx_re LONE_AMP_RE with RSeq _ (RNLook r) => r | r => r end.
Lemma lone_shape : rx_re LONE_AMP_RE = RSeq (RCls (ch 38)) (RNLook lone_not).
Proof. vm_compute. reflexivity. Qed.
Lemma lone_post : post word_blank lone_not [0%nat] = [].
Proof. vm_compute. reflexivity. Qed.
Lemma amp_match b w v : small_word w -> match_at (rx_re LONE_AMP_RE) b ([38] ++ w ++ [32] ++ v) = Some (mk_mst (38 :: b) (w ++ [32] ++ v) []).
Proof.
  intros Hw. rewrite lone_shape. unfold match_at. cbn [app]. rewrite m_seq, m_cls, in_ch, m_nlook.
  change (m lone_not (mk_mst (38 :: b) (w ++ 32 :: v) []) Some) with (match_at lone_not (38 :: b) (w ++ [32] ++ v)).
  destruct (match_at lone_not (38 :: b) (w ++ [32] ++ v)) as [s|] eqn:E; [|reflexivity]. exfalso. apply match_at_sound in E.
  destruct (post_sound word_blank _ _ _ E [0%nat] 0%nat) as (q & Hq & _); [left; reflexivity| |rewrite lone_post in Hq; destruct Hq].
  split; [|apply word_suf; exact Hw]. apply (PreCons word_blank 2 any_char 0 38 b); [apply any_pre|right; left; reflexivity|reflexivity].
Qed.
Definition amp_apart : list trans :=
  [(60, ch 32, 61); (61, ch 38, 62); (62, ch 32, 8); (60, ch 32, 63); (60, ch 32, 64); (63, one_az, 63); (63, one_az, 64); (64, ch 38, 65); (65, one_az, 66); (66, one_az, 66); (66, ch 32, 8)]%nat.
Lemma step_amp first rest : proper_text first rest -> replace_all (rx_re LONE_AMP_RE) (fun _ => u "&amp;") (with_symbols (at_stage 0) first rest) = with_symbols (at_stage 1) first rest.
Proof.
  by_step amp_apart [61%nat; 64%nat].
  - intros _. change ((32 :: at_stage 0 Ampersand) ++ [32]) with ([32] ++ [38] ++ [32]). change ((32 :: at_stage 1 Ampersand) ++ [32]) with ([32] ++ u "&amp;" ++ [32]).
    apply hit_step with (H := [61%nat; 64%nat]) (q1 := 61%nat) (q2 := 62%nat); [vm_compute; reflexivity|discriminate| | | |].
    + one_step 61%nat. constructor.
    + one_step 62%nat. constructor.
    + one_step 8%nat. constructor.
    + plain_match.
  - intros [Ha Hb]. change (at_stage 0 (Joined a b)) with (a ++ [38] ++ b). change (at_stage 1 (Joined a b)) with (a ++ u "&amp;" ++ b).
    replace ((32 :: a ++ [38] ++ b) ++ [32]) with ((32 :: a) ++ [38] ++ (b ++ [32])) by (cbn [app]; rewrite <- !app_assoc; reflexivity).
    replace ((32 :: a ++ u "&amp;" ++ b) ++ [32]) with ((32 :: a) ++ u "&amp;" ++ (b ++ [32])) by (cbn [app]; rewrite <- !app_assoc; reflexivity).
    assert (forall x, In x a -> in_cls one_az x = true) as Ha0 by (intros; apply (small_in a); auto).
    assert (forall x, In x b -> in_cls one_az x = true) as Hb0 by (intros; apply (small_in b); auto).
    apply hit_step with (H := [61%nat; 64%nat]) (q1 := 64%nat) (q2 := 65%nat); [vm_compute; reflexivity|discriminate| | | |].
    + apply fork_path with (x := 63%nat) (k := ch 32) (k' := one_az); auto using in_ch; solve [tr_in | vm_compute; reflexivity].
    + one_step 65%nat. constructor.
    + destruct b as [|d b]; [destruct Hb; congruence|]. cbn [app]. eapply PathCons with (q' := 66%nat) (l := one_az); [reflexivity|tr_in|apply Hb0; left; reflexivity|].
      eapply path_app with (q' := 66%nat); [apply path_many with (k := one_az); [tr_in|reflexivity|intros; apply Hb0; right; auto]|]. one_step 8%nat. constructor.
    + intros b' v. eexists. rewrite <- app_assoc. rewrite amp_match by exact Hb. split; [reflexivity|]. split; reflexivity.
Qed.
