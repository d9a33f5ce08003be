(** One step of the replacement of typographic symbols. *)
From Verif Require Import Str Unicode Regex RegexParse RegexSnips RegexTheory RegexAuto RegexPath Lib ModelBase ModelInline ProofPlain ProofParas ProofText SpecPlain SpecText SpecSymbols ProofSymbolAuto.
#[local] Arguments u : simpl never.

(** ** Reading items *)
Inductive Reads : list item -> str -> Prop :=
| ReadsNil : Reads [] []
| ReadsOne k l its c w : in_cls k c = true -> Reads its w -> Reads ((k, false, l) :: its) (c :: w)
| ReadsMany k l its v w : v <> [] -> (forall c, In c v -> in_cls k c = true) -> Reads its w -> Reads ((k, true, l) :: its) (v ++ w).
Lemma reads_app i j v w : Reads i v -> Reads j w -> Reads (i ++ j) (v ++ w).
Proof. intros H. revert j w. induction H; intros j w' Hj; [exact Hj|cbn [app]; constructor; auto|cbn [app]; rewrite <- app_assoc; constructor; auto]. Qed.
Lemma in_ch c : in_cls (ch c) c = true.
Proof. unfold in_cls, ch. cbn [c_neg c_items existsb in_item]. rewrite N.leb_refl. reflexivity. Qed.
Lemma in_singles l c : in_cls (mk_cls false (map (fun c => CRange c c) l)) c = true <-> In c l.
Proof.
  unfold in_cls. cbn [c_neg c_items]. rewrite xorb_false_l. induction l as [|x l IH]; [split; [discriminate|intros []]|]. cbn [map existsb in_item]. rewrite orb_true_iff, IH.
  rewrite andb_true_iff, !N.leb_le. cbn [In]. split; intros [E|E]; auto; left; lia.
Qed.
Lemma in_run n : forall a c, In c (map N.of_nat (seq a n)) <-> N.of_nat a <= c < N.of_nat (a + n).
Proof.
  intros a c. rewrite in_map_iff. split; [intros (x & <- & H); apply in_seq in H; lia|]. intros H. exists (N.to_nat c). split; [lia|]. apply in_seq. lia.
Qed.
Lemma in_az c : in_cls one_az c = true <-> 97 <= c <= 122.
Proof. unfold one_az. rewrite in_singles. change (u "abcdefghijklmnopqrstuvwxyz") with (map N.of_nat (seq 97 26)). rewrite in_run. lia. Qed.
Lemma in_09 c : in_cls one_09 c = true <-> 48 <= c <= 57.
Proof. unfold one_09, digit. rewrite in_singles. change (u "0123456789") with (map N.of_nat (seq 48 10)). rewrite in_run. lia. Qed.
Lemma reads_chr c l : Reads (chr c l) [c].
Proof. constructor; [apply in_ch|constructor]. Qed.
Lemma reads_az l w : small_word w -> Reads (az l) w.
Proof. intros [H1 H2]. rewrite <- (app_nil_r w). constructor; [auto| |constructor]. intros c Hc. apply in_az, H2, Hc. Qed.
Lemma reads_dg l w : numeral w -> Reads (dg l) w.
Proof. intros [H1 H2]. rewrite <- (app_nil_r w). constructor; [auto| |constructor]. intros c Hc. apply in_09, H2, Hc. Qed.
Lemma reads_flat e l l' s : Reads (flat_map (fun c => if c =? e then chr c l else chr c l') s) s.
Proof.
  induction s as [|c s IH]; [constructor|]. cbn [flat_map]. change (c :: s) with ([c] ++ s). apply reads_app; auto. destruct (c =? e); apply reads_chr.
Qed.
Lemma reads_reference s : (2 <= List.length s)%nat -> Reads (reference s) s.
Proof.
  destruct s as [|a [|b s]]; cbn [List.length]; intros H; [lia|lia|]. unfold reference. change (a :: b :: s) with ([a] ++ [b] ++ s). repeat apply reads_app; auto using reads_chr, reads_flat.
Qed.
Lemma reads_paren s : (2 <= List.length s)%nat -> Reads (paren s) s.
Proof.
  destruct s as [|a [|b s]]; cbn [List.length]; intros H; [lia|lia|]. unfold paren. change (a :: b :: s) with ([a] ++ [b] ++ s). repeat apply reads_app; auto using reads_chr, reads_flat.
Qed.
Lemma reads_two l l' w : numeral w -> (2 <= List.length w)%nat -> Reads ([(one_09, false, l)] ++ dg l') w.
Proof.
  intros [H1 H2] H. destruct w as [|a [|b w]]; cbn [List.length] in H; [lia|lia|]. change (a :: b :: w) with ([a] ++ (b :: w)). apply reads_app.
  - constructor; [apply in_09, H2; left; reflexivity|constructor].
  - apply reads_dg. split; [discriminate|]. intros c Hc. apply H2. right. exact Hc.
Qed.
Lemma items_read k s : proper_symbol s -> Reads (items k s) (at_stage k s).
Proof.
  intros H. unfold items, at_stage. destruct (Nat.leb k (late s)).
  - destruct s; cbn [proper_symbol] in H; cbn [typed]; repeat match goal with |- context [Nat.eqb ?a ?b] => destruct (Nat.eqb a b) end;
      repeat apply reads_app; auto using reads_chr; try (apply reads_az; tauto); try (apply reads_dg; tauto); try (apply reads_paren; vm_compute; lia); try (apply reads_reference; vm_compute; lia);
      try (apply (reads_app [_] (dg _) ) ; fail); try (change (u ".") with [46]; apply reads_chr).
    all: try (destruct H; apply reads_two; auto; fail).
    all: try (change (u "...") with ([46] ++ [46] ++ [46]); repeat apply reads_app; apply reads_chr).
    all: try (change (u "--") with ([45] ++ [45]); repeat apply reads_app; apply reads_chr).
    all: try (change (u "(+/-)") with ([40] ++ [43] ++ [47] ++ [45] ++ [41]); repeat apply reads_app; apply reads_chr).
  - destruct s; cbn [proper_symbol] in H; cbn [shown]; repeat apply reads_app; try (apply reads_az; tauto); try (apply reads_dg; tauto); try (apply reads_reference; vm_compute; lia).
    all: try (destruct H; apply reads_two; auto; fail).
Qed.
Lemma chain_path A H : forall its w, Reads its w -> forall q dst, (forall t, In t (chain q its dst) -> In t (au_trans A) /\ mem (fst (fst t)) H = false) -> Path A H q (w ++ [32]) dst.
Proof.
  induction 1 as [|k l its c w Hc Hr IH|k l its v w Hn Hv Hr IH]; intros q dst Ht; cbn [chain] in Ht.
  - destruct (Ht (q, ch 32, dst)) as [H1 H2]; [left; reflexivity|]. cbn [app]. econstructor; [exact H2|exact H1|apply in_ch|constructor].
  - destruct (Ht (q, k, l)) as [H1 H2]; [left; reflexivity|]. cbn [app]. econstructor; [exact H2|exact H1|exact Hc|]. apply IH. intros t Hi. apply Ht. right. exact Hi.
  - rewrite <- app_assoc. destruct (Ht (q, k, l)) as [H1 H2]; [left; reflexivity|]. destruct (Ht (l, k, l)) as [H3 H4]; [right; left; reflexivity|].
    assert (Path A H l (w ++ [32]) dst) as Hp by (apply IH; intros t Hi; apply Ht; right; right; exact Hi).
    destruct v as [|c v]; [congruence|]. cbn [app]. econstructor; [exact H2|exact H1|apply Hv; left; reflexivity|].
    assert (forall c, In c v -> in_cls k c = true) as Hv' by (intros; apply Hv; right; auto). clear - H3 H4 Hp Hv'. induction v as [|c v IHv]; [exact Hp|].
    cbn [app]. econstructor; [exact H4|exact H3|apply Hv'; left; reflexivity|]. apply IHv. intros; apply Hv'; right; auto.
Qed.
Lemma items_eqb_eq : forall i j, items_eqb i j = true -> i = j.
Proof.
  induction i as [|[x y|] i IH]; intros [|[x' y'|] j]; cbn [items_eqb]; try discriminate; auto. rewrite !andb_true_iff, !N.eqb_eq. intros [[-> ->] E]. f_equal. auto.
Qed.
Lemma trans_eqb_eq a b : trans_eqb a b = true -> a = b.
Proof.
  destruct a as [[q k] l], b as [[q' k'] l']. unfold trans_eqb. cbn [fst snd]. rewrite !andb_true_iff, !Nat.eqb_eq. intros [[-> ->] E].
  destruct k as [[] i]; try discriminate; destruct k' as [[] i']; try discriminate. rewrite (items_eqb_eq _ _ E). reflexivity.
Qed.
Lemma dedupe_in t l : In t l -> In t (dedupe l).
Proof.
  induction l as [|x l IH]; intros H; [destruct H|]. cbn [dedupe]. destruct (existsb (trans_eqb x) (dedupe l)) eqn:E.
  - destruct H as [->|H]; auto. apply existsb_exists in E as (y & Hy & Ey). apply trans_eqb_eq in Ey. subst. exact Hy.
  - destruct H as [->|H]; [left; auto|right; auto].
Qed.
Definition kind_of (s : symbol) : symbol :=
  match s with
  | Times _ _ => Times [] [] | Apostrophe _ _ => Apostrophe [] [] | Decade _ => Decade [] | Single _ => Single [] | Double _ => Double [] | Ellipsis _ => Ellipsis [] | Joined _ _ => Joined [] []
  | _ => s
  end.
Lemma kind_in s : In (kind_of s) kinds.
Proof. destruct s; cbn [kind_of kinds In]; tauto. Qed.
Lemma kind_late s : late (kind_of s) = late s.
Proof. destruct s; reflexivity. Qed.
Lemma kind_items k s : items k (kind_of s) = items k s.
Proof. unfold items. rewrite kind_late. destruct s; reflexivity. Qed.
Lemma kind_changed k s : changed k (kind_of s) = changed k s.
Proof. unfold changed. rewrite kind_late. destruct s; reflexivity. Qed.
Lemma pool_in k out s t : (out (kind_of s) = false) -> In t (chain 21 (items k s) 8) -> In t (pool k out).
Proof.
  intros Ho Ht. unfold pool. apply dedupe_in. right. apply in_flat_map. exists (kind_of s). split; [apply kind_in|]. rewrite Ho, kind_items. exact Ht.
Qed.
Lemma pool_blank k out : In (20, ch 32, 21)%nat (pool k out).
Proof. unfold pool. apply dedupe_in. left. reflexivity. Qed.
Lemma unchanged k s : changed k s = false -> at_stage (S k) s = at_stage k s.
Proof.
  unfold changed, at_stage. rewrite orb_false_iff, Nat.eqb_neq. intros [H1 H2].
  destruct (Nat.leb_spec k (late s)) as [Hl|Hl].
  - assert (Nat.leb (S k) (late s) = true) as -> by (apply Nat.leb_le; lia). destruct s; try reflexivity; cbn [late] in *.
    + destruct (Nat.eqb_spec k 5); [discriminate|]. destruct (Nat.eqb_spec (S k) 6); [lia|]. destruct (Nat.eqb_spec k 6); [lia|]. reflexivity.
    + destruct (Nat.eqb_spec k 8); [discriminate|]. destruct (Nat.eqb_spec (S k) 9); [lia|]. destruct (Nat.eqb_spec k 9); [lia|]. reflexivity.
  - assert (Nat.leb (S k) (late s) = false) as -> by (apply Nat.leb_gt; lia). reflexivity.
Qed.

(** ** Words *)
Lemma words_path A H e : (forall t, In t (au_trans paragraph) -> In t (au_trans A) /\ mem (fst (fst t)) H = false) -> (forall t, In t (ends e) -> In t (au_trans A)) ->
  forall q w, Suf paragraph q w -> w <> [] -> Path A H q w e.
Proof.
  intros Ht He q w Hs. induction Hs as [q Hf|q l q' c w Hi Hc Hs IH]; intros Hn; [congruence|]. destruct (Ht _ Hi) as [H1 H2]. cbn [fst] in H2.
  destruct w as [|d w].
  - econstructor; [exact H2| |exact Hc|constructor]. apply He. unfold ends. apply in_flat_map. exists (q, l, q'). split; auto. cbn [snd fst].
    inversion Hs; subst. assert (mem q' (au_final paragraph) = true) as -> by (apply mem_in; auto). left. reflexivity.
  - econstructor; [exact H2|exact H1|exact Hc|]. apply IH. discriminate.
Qed.
Lemma words_end A H : (forall t, In t (au_trans paragraph) -> In t (au_trans A) /\ mem (fst (fst t)) H = false) ->
  forall q w, Suf paragraph q w -> exists f, In f (au_final paragraph) /\ Path A H q w f.
Proof.
  intros Ht q w Hs. induction Hs as [q Hf|q l q' c w Hi Hc Hs (f & Hf & IH)]; [exists q; split; [auto|constructor]|]. destruct (Ht _ Hi) as [H1 H2]. cbn [fst] in H2.
  exists f. split; auto. econstructor; eauto.
Qed.
Lemma more_suf w : accepts more_words w -> Suf paragraph 8 w.
Proof. unfold accepts. cbn [more_words au_start]. intros H. induction H; [constructor; auto|econstructor; eauto]. Qed.
Lemma more_ne w : Suf paragraph 8 w -> w <> [].
Proof. intros H ->. inversion H as [q Hf|]; subst. cbn in Hf. repeat (destruct Hf as [Hf|Hf]; [discriminate|]). destruct Hf. Qed.
Lemma first_ne w : accepts paragraph w -> w <> [].
Proof. intros H ->. inversion H as [q Hf|]; subst. cbn in Hf. repeat (destruct Hf as [Hf|Hf]; [discriminate|]). destruct Hf. Qed.

(** ** The whole text *)
Section Texts.
Variables (A : auto) (form : symbol -> str).
Hypothesis par_in : forall t, In t (au_trans paragraph) -> In t (au_trans A).
Hypothesis fin_in : au_final A = au_final paragraph.
Hypothesis form_path : forall s, proper_symbol s -> exists e, (forall t, In t (ends e) -> In t (au_trans A)) /\ Path A [] e ((32 :: form s) ++ [32]) 8.
Lemma text_suf : forall rest q w, Suf paragraph q w -> w <> [] -> (forall s x, In (s, x) rest -> proper_symbol s /\ accepts more_words x) ->
  Suf A q (with_symbols form w rest).
Proof.
  induction rest as [|[s x] rest IH]; intros q w Hw Hn Hr; unfold with_symbols; cbn [flat_map].
  - rewrite app_nil_r. destruct (words_end A [] (fun t Ht => conj (par_in t Ht) eq_refl) q w Hw) as (f & Hf & Hp). rewrite <- (app_nil_r w). eapply path_suf; [exact Hp|].
    constructor. rewrite fin_in. exact Hf.
  - destruct (Hr s x (or_introl eq_refl)) as [H1 H2]. apply more_suf in H2. destruct (form_path s H1) as (e & He & Hp).
    eapply path_suf; [exact (words_path A [] e (fun t Ht => conj (par_in t Ht) eq_refl) He q w Hw Hn)|].
    change (u " ") with [32]. cbn [fst snd]. replace (([32] ++ form s ++ [32] ++ x) ++ flat_map (fun p => [32] ++ form (fst p) ++ [32] ++ snd p) rest)
      with (((32 :: form s) ++ [32]) ++ with_symbols form x rest) by (unfold with_symbols; change (u " ") with [32]; cbn [app]; rewrite <- !app_assoc; reflexivity).
    eapply path_suf; [exact Hp|]. apply IH; [exact H2|apply more_ne; exact H2|]. intros s' x' Hi. apply Hr. right. exact Hi.
Qed.
End Texts.
Lemma pool_form k out s A : (forall t, In t (ends 20 ++ pool k out) -> In t (au_trans A)) -> out (kind_of s) = false -> proper_symbol s ->
  forall H, (forall t, In t (ends 20 ++ pool k out) -> mem (fst (fst t)) H = false) -> Path A H 20 ((32 :: at_stage k s) ++ [32]) 8.
Proof.
  intros HA Ho Hs H HH. cbn [app]. assert (In (20, ch 32, 21)%nat (ends 20 ++ pool k out)) as Hb by (apply in_or_app; right; apply pool_blank).
  econstructor; [apply (HH _ Hb)|apply HA; exact Hb|apply in_ch|]. apply chain_path with (its := items k s); [apply items_read; auto|].
  intros t Ht. assert (In t (ends 20 ++ pool k out)) as Ht' by (apply in_or_app; right; eapply pool_in; eauto). auto.
Qed.
Lemma pool_text k first rest : proper_text first rest -> accepts (pool_auto k) (with_symbols (at_stage k) first rest).
Proof.
  intros [H1 H2]. unfold accepts. change (au_start (pool_auto k)) with 0%nat. apply text_suf; auto.
  - intros t Ht. cbn [pool_auto au_trans]. apply in_or_app. auto.
  - intros s Hs. exists 20%nat. split; [intros t Ht; cbn [pool_auto au_trans]; rewrite !in_app_iff; auto|].
    apply pool_form with (out := fun _ => false); auto. intros t Ht. cbn [pool_auto au_trans]. apply in_or_app. auto.
  - apply first_ne; auto.
Qed.

(** ** The step from stage [k] *)
Section Step.
Variables (k : nat) (r : re) (f : hit -> str) (apart : list trans) (H : list nat).
Let A := stage_auto k apart.
Hypothesis step_clear : clear A H r = true.
Hypothesis step_away : forallb (fun t => negb (mem (fst (fst t)) H)) (au_trans paragraph ++ ends 20 ++ pool k (changed k)) = true.
Hypothesis step_final : forallb (fun q => negb (mem q H)) (au_final paragraph) = true.
Hypothesis step_hit : forall s, changed k s = true -> proper_symbol s ->
  Path A [] 60 ((32 :: at_stage k s) ++ [32]) 8 /\
  forall b v last, RegexAuto.Pre A 60 b -> Suf A 8 v -> exists last',
  out r f b (((32 :: at_stage k s) ++ [32]) ++ v) last = ((32 :: at_stage (S k) s) ++ [32]) ++ out r f (rev ((32 :: at_stage k s) ++ [32]) ++ b) v last'.
Lemma step_par t : In t (au_trans paragraph) -> In t (au_trans A) /\ mem (fst (fst t)) H = false.
Proof.
  intros Ht. split; [cbn [A stage_auto au_trans]; apply in_or_app; auto|]. rewrite forallb_forall in step_away. specialize (step_away t (in_or_app _ _ _ (or_introl Ht))).
  apply negb_true_iff in step_away. exact step_away.
Qed.
Lemma step_pool t : In t (ends 20 ++ pool k (changed k)) -> In t (au_trans A) /\ mem (fst (fst t)) H = false.
Proof.
  intros Ht. split; [cbn [A stage_auto au_trans]; rewrite !in_app_iff in *; tauto|]. rewrite forallb_forall in step_away. specialize (step_away t (in_or_app _ _ _ (or_intror Ht))).
  apply negb_true_iff in step_away. exact step_away.
Qed.
Lemma ends60 t : In t (ends 60) -> In t (au_trans A).
Proof. intros Ht. cbn [A stage_auto au_trans]. rewrite !in_app_iff. auto. Qed.
Lemma step_path s : proper_symbol s -> exists e, (forall t, In t (ends e) -> In t (au_trans A)) /\ Path A [] e ((32 :: at_stage k s) ++ [32]) 8.
Proof.
  intros Hs. destruct (changed k s) eqn:E.
  - exists 60%nat. split; [exact ends60|]. apply (step_hit s E Hs).
  - exists 20%nat. split; [intros t Ht; apply step_pool, in_or_app; auto|]. apply pool_form with (out := changed k); auto; [intros t Ht; apply step_pool; auto|]. rewrite kind_changed. exact E.
Qed.
Lemma step_text : forall rest q w b last, Suf paragraph q w -> w <> [] -> (forall s x, In (s, x) rest -> proper_symbol s /\ accepts more_words x) -> RegexAuto.Pre A q b ->
  out r f b (with_symbols (at_stage k) w rest) last = with_symbols (at_stage (S k)) w rest.
Proof.
  induction rest as [|[s x] rest IH]; intros q w b last Hw Hn Hr Hp.
  - unfold with_symbols. cbn [flat_map]. destruct (words_end A H step_par q w Hw) as (g & Hg & Hpath).
    assert (Suf A g []) as Hs by (constructor; exact Hg).
    destruct (out_path A H r f q w g step_clear Hpath b [] last Hp Hs) as (last' & ->). f_equal. apply (out_end A H r f g); auto.
    + rewrite forallb_forall in step_final. specialize (step_final g Hg). apply negb_true_iff in step_final. exact step_final.
    + eapply path_pre; eauto.
  - destruct (Hr s x (or_introl eq_refl)) as [H1 H2]. apply more_suf in H2. assert (forall s' x', In (s', x') rest -> proper_symbol s' /\ accepts more_words x') as Hr' by (intros s' x' Hi; apply Hr; right; exact Hi).
    assert (forall form, with_symbols form w ((s, x) :: rest) = w ++ ((32 :: form s) ++ [32]) ++ with_symbols form x rest) as E.
    { intros form. unfold with_symbols. cbn [flat_map fst snd]. change (u " ") with [32]. cbn [app]. rewrite <- !app_assoc. reflexivity. }
    rewrite !E. clear E. pose proof (text_suf A (at_stage k) (fun t Ht => proj1 (step_par t Ht)) eq_refl step_path rest 8 x H2 (more_ne x H2) Hr') as Hx.
    destruct (changed k s) eqn:Ec.
    + destruct (step_hit s Ec H1) as [Hsym Hout]. pose proof (words_path A H 60 step_par ends60 q w Hw Hn) as Hpath.
      assert (Suf A 60 (((32 :: at_stage k s) ++ [32]) ++ with_symbols (at_stage k) x rest)) as Hs by (eapply path_suf; [exact Hsym|exact Hx]).
      destruct (out_path A H r f q w 60 step_clear Hpath b _ last Hp Hs) as (last1 & ->). f_equal.
      destruct (Hout (rev w ++ b) (with_symbols (at_stage k) x rest) last1) as (last2 & ->); [eapply path_pre; eauto|exact Hx|]. f_equal.
      apply (IH 8%nat); auto; [apply more_ne; exact H2|]. eapply path_pre; [exact Hsym|]. eapply path_pre; eauto.
    + assert (forall t, In t (ends 20) -> In t (au_trans A)) as He by (intros t Ht; apply step_pool, in_or_app; auto).
      pose proof (words_path A H 20 step_par He q w Hw Hn) as Hpath.
      assert (Path A H 20 ((32 :: at_stage k s) ++ [32]) 8) as Hsym.
      { apply pool_form with (out := changed k); auto; [intros t Ht; apply step_pool; auto|rewrite kind_changed; exact Ec|intros t Ht; apply step_pool; auto]. }
      assert (Suf A 20 (((32 :: at_stage k s) ++ [32]) ++ with_symbols (at_stage k) x rest)) as Hs by (eapply path_suf; [exact Hsym|exact Hx]).
      destruct (out_path A H r f q w 20 step_clear Hpath b _ last Hp Hs) as (last1 & ->). f_equal.
      destruct (out_path A H r f 20 _ 8 step_clear Hsym (rev w ++ b) _ last1 (path_pre _ _ _ _ _ Hpath _ Hp) Hx) as (last2 & ->). rewrite (unchanged k s Ec). f_equal.
      apply (IH 8%nat); auto; [apply more_ne; exact H2|]. eapply path_pre; [exact Hsym|]. eapply path_pre; eauto.
Qed.
Lemma step_all first rest : proper_text first rest -> replace_all r f (with_symbols (at_stage k) first rest) = with_symbols (at_stage (S k)) first rest.
Proof.
  intros [H1 H2]. unfold replace_all, segs. change (out r f [] (with_symbols (at_stage k) first rest) false = with_symbols (at_stage (S k)) first rest).
  apply (step_text rest 0%nat); auto; [apply first_ne; auto|]. constructor.
Qed.
End Step.
