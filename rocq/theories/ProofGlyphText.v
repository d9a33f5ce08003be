(** The typography of a whole text. *)
From Verif Require Import Str Unicode Regex RegexParse RegexSnips RegexTheory RegexAuto Lib ModelBase ModelHtml ModelInline ModelParser ProofParse ProofTags ProofDoc ProofWeave ProofFootHits SpecPlain SpecGlyphs ProofGlyphs ProofSymbolHits SpecGlyphRules ProofGlyphRules ProofGlyphSteps SpecGlyphText.
#[local] Arguments u : simpl never.

(** ** Ampersands *)
Lemma run_class c p w : (forall d, in_cls c d = p d) -> forallb p w = true -> forallb (in_cls c) w = true.
Proof. intros H Hw. rewrite forallb_forall in Hw |- *. intros d Hd. rewrite H. apply Hw. exact Hd. Qed.
Lemma stop_class c p r : (forall d, in_cls c d = p d) -> match r with d :: _ => p d = false | [] => True end -> stops c r.
Proof. intros H Hr. destruct r; [exact I|]. cbn [stops]. rewrite H. exact Hr. Qed.
Lemma star_semi c p b t cs : (forall d, in_cls c d = p d) -> p 59 = false -> some (m (RSeq (RStar true (RCls c)) (RCls (one 59))) (mk_mst b t cs) Some) = semicolon (snd (run p t)).
Proof.
  intros Hc Hp. rewrite m_seq. destruct (run p t) as [w r] eqn:E. destruct (run_split _ _ _ _ E) as (-> & Hw & Hr). cbn [snd]. rewrite star_run.
  - destruct r as [|d r]; [rewrite m_cls_nil; reflexivity|]. rewrite m_cls, in_one. cbn [semicolon]. destruct (d =? 59); reflexivity.
  - eapply run_class; eauto.
  - eapply stop_class; eauto.
  - intros w1 x w2 Ew. rewrite m_cls, in_one. destruct (N.eqb_spec x 59) as [->|]; [|reflexivity]. rewrite Ew, forallb_app in Hw. apply andb_prop in Hw as [_ Hw]. cbn [forallb] in Hw. rewrite Hp in Hw. discriminate.
Qed.
Lemma some_semi c1 c p1 p b t cs : (forall d, in_cls c1 d = p1 d) -> (forall d, in_cls c d = p d) -> p 59 = false ->
  some (m (RSeq (RCls c1) (RSeq (RStar true (RCls c)) (RCls (one 59)))) (mk_mst b t cs) Some) = some_then p1 p t.
Proof. intros H1 Hc Hp. rewrite m_seq. destruct t as [|d t]; [rewrite m_cls_nil; reflexivity|]. rewrite m_cls, H1. cbn [some_then]. destruct (p1 d); [|reflexivity]. apply (star_semi c p); assumption. Qed.
Lemma alt_some a b s : some (m (RAlt a b) s Some) = some (m a s Some) || some (m b s Some).
Proof. rewrite m_alt. destruct (m a s Some); reflexivity. Qed.
Definition hex_c : cls := mk_cls false [CRange 97 102; CRange 65 70; CRange 48 57].
Definition latin_c : cls := mk_cls false [CRange 97 122; CRange 65 90; CRange 8490 8490; CRange 383 383].
Definition latin_digit_c : cls := mk_cls false [CRange 97 122; CRange 65 90; CRange 8490 8490; CRange 383 383; CRange 48 57].
Lemma in_hex d : in_cls hex_c d = hex_digit d.
Proof. unfold in_cls, hex_c, hex_digit, ascii_digit. cbn [c_neg c_items existsb in_item]. rewrite orb_false_r, xorb_false_l, !orb_assoc. reflexivity. Qed.
Lemma in_latin d : in_cls latin_c d = latin d.
Proof. unfold in_cls, latin_c, latin. cbn [c_neg c_items existsb]. rewrite !in_range. cbn [in_item]. rewrite orb_false_r, xorb_false_l, !orb_assoc. reflexivity. Qed.
Lemma in_latin_digit d : in_cls latin_digit_c d = latin d || ascii_digit d.
Proof. unfold in_cls, latin_digit_c, latin, ascii_digit. cbn [c_neg c_items existsb]. rewrite !in_range. cbn [in_item]. rewrite orb_false_r, xorb_false_l, !orb_assoc. reflexivity. Qed.
Definition dec_ref : re := RSeq (RCls (one 35)) (RSeq (RSeq (RCls digit_c) (RStar true (RCls digit_c))) (RCls (one 59))).
Definition hex_ref : re := RSeq (RCls (one 35)) (RSeq (RCls (list_c [120; 88])) (RSeq (RSeq (RCls hex_c) (RStar true (RCls hex_c))) (RCls (one 59)))).
Definition name_ref : re := RSeq (RCls latin_c) (RSeq (RStar true (RCls latin_digit_c)) (RCls (one 59))).
Lemma amp_shape : rx_re LONE_AMP_RE = RSeq (RCls (one 38)) (RNLook (RAlt dec_ref (RAlt hex_ref name_ref))).
Proof. reflexivity. Qed.
Lemma assoc_some a b c s k : m (RSeq (RSeq a b) c) s k = m (RSeq a (RSeq b c)) s k.
Proof. reflexivity. Qed.
Lemma reference_some b t cs : some (m (RAlt dec_ref (RAlt hex_ref name_ref)) (mk_mst b t cs) Some) = reference_ahead t.
Proof.
  rewrite !alt_some. unfold name_ref. rewrite (some_semi latin_c latin_digit_c latin (fun d => latin d || ascii_digit d)) by (apply in_latin || apply in_latin_digit || reflexivity).
  unfold dec_ref, hex_ref. rewrite !(m_seq (RCls (one 35))). destruct t as [|c t]; [rewrite !m_cls_nil; reflexivity|]. rewrite !m_cls, !in_one. unfold reference_ahead. destruct (c =? 35); [|reflexivity]. cbn [andb]. rewrite orb_assoc. f_equal. f_equal.
  - rewrite assoc_some. apply (some_semi digit_c digit_c ascii_digit ascii_digit); (apply in_digit || reflexivity).
  - rewrite m_seq. destruct t as [|x t]; [rewrite m_cls_nil; reflexivity|]. rewrite m_cls. unfold list_c. rewrite in_list. change (among [120; 88] x) with (cross x). destruct (cross x); [|reflexivity]. cbn [andb]. rewrite assoc_some. apply (some_semi hex_c hex_c hex_digit hex_digit); (apply in_hex || reflexivity).
Qed.
Lemma ampersands_ok : at_ok (rx_re LONE_AMP_RE) (fun _ => u "&amp;") lone_ampersand_at.
Proof.
  intros before t. unfold match_at, lone_ampersand_at. rewrite amp_shape, m_seq. destruct t as [|c t]; [apply m_cls_nil|]. rewrite m_cls, in_one. destruct (c =? 38); [|reflexivity]. cbn [andb]. rewrite m_nlook. pose proof (reference_some (c :: before) t []) as P.
  destruct (m (RAlt dec_ref (RAlt hex_ref name_ref)) (mk_mst (c :: before) t []) Some); cbn [some] in P; rewrite <- P; cbn [negb]; [reflexivity|]. exists [c]. eexists. split; [discriminate|]. split; [reflexivity|]. split; [reflexivity|]. split; reflexivity.
Qed.
Lemma escaped_is t : replace_char (replace_char (replace_all (rx_re LONE_AMP_RE) (fun _ => u "&amp;") t) 60 (u "&lt;")) 62 (u "&gt;") = escaped t.
Proof.
  rewrite (rewrites _ _ _ t ampersands_ok). unfold escaped, replace_char. induction (rewritten lone_ampersand_at t) as [|c x IH]; [reflexivity|]. cbn [flat_map]. rewrite flat_map_app, IH. f_equal. destruct (c =? 60); [reflexivity|]. cbn [flat_map]. rewrite app_nil_r. reflexivity.
Qed.

(** ** Words in capitals *)
Definition upper_c : cls := prop_c PLu.
Definition lower_c : cls := prop_c PLl.
Lemma in_upper d : in_cls upper_c d = capital d. Proof. apply (in_prop PLu). Qed.
Lemma in_lower d : in_cls lower_c d = small d. Proof. apply (in_prop PLl). Qed.
(** What is in no white space and no punctuation *)
Fixpoint disjoint_range (t : rtree) (lo hi : N) : bool :=
  match t with E => true | T l a b r => if hi <? a then disjoint_range l lo hi else (b <? lo) && (a <=? lo) && disjoint_range r lo hi end.
Lemma disjoint_mem t lo hi c : disjoint_range t lo hi = true -> lo <= c -> c <= hi -> rmem t c = false.
Proof.
  induction t as [|l IHl a b r IHr]; cbn [disjoint_range rmem]; intros H H1 H2; [reflexivity|]. destruct (N.ltb_spec hi a); [destruct (N.ltb_spec c a); [auto|lia]|].
  apply andb_prop in H as [H H3]. apply andb_prop in H as [H4 H5]. apply N.ltb_lt in H4. apply N.leb_le in H5. destruct (N.ltb_spec c a), (N.ltb_spec b c); auto; lia.
Qed.
Fixpoint disjoint (t t' : rtree) : bool := match t with E => true | T l a b r => disjoint l t' && disjoint_range t' a b && disjoint r t' end.
Lemma disjoint_ok t t' c : disjoint t t' = true -> rmem t c = true -> rmem t' c = false.
Proof.
  induction t as [|l IHl a b r IHr]; cbn [disjoint rmem]; intros H H1; [discriminate|]. apply andb_prop in H as [H Hr]. apply andb_prop in H as [Hl Hc]. destruct (N.ltb_spec c a); [auto|]. destruct (N.ltb_spec b c); [auto|]. eapply disjoint_mem; eauto.
Qed.
Lemma capital_small c : capital c = true -> small c = false.
Proof. apply disjoint_ok. vm_compute. reflexivity. Qed.
Definition enders : list N := [9; 10; 11; 12; 13; 32; 133; 160; 5760; 8192; 8193; 8194; 8195; 8196; 8197; 8198; 8199; 8200; 8201; 8202; 8232; 8233; 8239; 8287; 12288] ++ punctuation.
Lemma ws_list c : is_ws c = true -> In c enders.
Proof.
  unfold is_ws. intros H. assert ((9 <= c <= 13) \/ (8192 <= c <= 8202) \/ In c [32; 133; 160; 5760; 8232; 8233; 8239; 8287; 12288]) as G.
  { rewrite !orb_true_iff, !andb_true_iff, !N.leb_le, !N.eqb_eq in H. cbn [In]. intuition. }
  unfold enders. destruct G as [G|[G|G]].
  - assert (c = 9 \/ c = 10 \/ c = 11 \/ c = 12 \/ c = 13) as F by lia. apply in_or_app. left. cbn [In]. intuition.
  - assert (c = 8192 \/ c = 8193 \/ c = 8194 \/ c = 8195 \/ c = 8196 \/ c = 8197 \/ c = 8198 \/ c = 8199 \/ c = 8200 \/ c = 8201 \/ c = 8202) as F by lia. apply in_or_app. left. cbn [In]. intuition.
  - apply in_or_app. left. cbn [In] in G |- *. intuition.
Qed.
Lemma ender c t : ends_here (c :: t) = true -> In c enders.
Proof. cbn [ends_here]. intros H. apply orb_prop in H as [H|H]; [apply ws_list; exact H|]. apply among_in in H. apply in_or_app. right. exact H. Qed.
Lemma not_ender tab c t : forallb (fun x => negb (rmem tab x)) enders = true -> rmem tab c = true -> ends_here (c :: t) = false.
Proof. intros H Hc. destruct (ends_here (c :: t)) eqn:E; [|reflexivity]. apply ender in E. rewrite forallb_forall in H. specialize (H c E). rewrite Hc in H. discriminate. Qed.
Lemma capital_end c t : capital c = true -> ends_here (c :: t) = false.
Proof. apply not_ender. vm_compute. reflexivity. Qed.
Lemma small_end c t : small c = true -> ends_here (c :: t) = false.
Proof. apply not_ender. vm_compute. reflexivity. Qed.
Definition open_c : cls := mk_cls true [CRange 34 34; CRange 62 62].
Definition open_re : re := RSeq (RStar false (RCls open_c)) (RGroup 4 (RAlt (RCls (one 60)) (RAssert EOT))).
Lemma in_open d : in_cls open_c d = negb (d =? 34) && negb (d =? 62).
Proof. unfold in_cls, open_c. cbn [c_neg c_items existsb]. rewrite !in_range, orb_false_r. destruct (d =? 34), (d =? 62); reflexivity. Qed.
Lemma open_some b t cs : some (m open_re (mk_mst b t cs) Some) = open_text t.
Proof.
  unfold open_re, open_text. rewrite m_seq. destruct (run (fun c => negb (c =? 34) && negb (c =? 62) && negb (c =? 60)) t) as [w r] eqn:E. destruct (run_split _ _ _ _ E) as (-> & Hw & Hr). cbn [snd].
  set (k := fun s' => m (RGroup 4 (RAlt (RCls (one 60)) (RAssert EOT))) s' Some).
  assert (K : forall b0 t0 cs0, some (k (mk_mst b0 t0 cs0)) = match t0 with c :: _ => c =? 60 | [] => true end).
  { intros b0 t0 cs0. unfold k. rewrite m_group, m_alt, m_assert. destruct t0 as [|c t0]; [rewrite m_cls_nil; reflexivity|]. rewrite m_cls, in_one. destruct (c =? 60); reflexivity. }
  assert (Hw' : forallb (in_cls open_c) w = true). { rewrite forallb_forall in Hw |- *. intros d Hd. rewrite in_open. specialize (Hw d Hd). apply andb_prop in Hw as [Hw _]. exact Hw. }
  assert (Hn : forall w1 x w2, w = w1 ++ x :: w2 -> forall b0 cs0, k (mk_mst b0 (x :: w2 ++ r) cs0) = None).
  { intros w1 x w2 Ew b0 cs0. specialize (K b0 (x :: w2 ++ r) cs0). rewrite Ew, forallb_app in Hw. apply andb_prop in Hw as [_ Hw]. cbn [forallb] in Hw. apply andb_prop in Hw as [Hx _]. apply andb_prop in Hx as [_ Hx]. apply negb_true_iff in Hx. cbv beta iota in K. rewrite Hx in K. destruct (k _); [discriminate|reflexivity]. }
  pose proof (K (rev w ++ b) r cs) as P. destruct (k (mk_mst (rev w ++ b) r cs)) as [y|] eqn:F.
  - erewrite m_star_lazy; [exact P|exact Hw'| |exact F]. intros w1 x w2 Ew. apply (Hn w1 x w2 Ew).
  - cbn [some] in P. rewrite <- P. rewrite m_star_none; [reflexivity| |].
    + destruct r as [|c r]; [exact I|]. cbn [stops]. rewrite in_open. rewrite <- P, andb_true_r in Hr. exact Hr.
    + intros w1 w2 Ew. destruct w2 as [|x w2]; [rewrite app_nil_r in Ew; subst w1; exact F|]. apply (Hn w1 x w2 Ew).
Qed.
Definition word_end : re := RSeq (RLook end_re) (RLook open_re).
Lemma look_at a s k : m (RLook a) s k = match m a s Some with Some _ => k s | None => None end. Proof. reflexivity. Qed.
Lemma word_end_at b t cs : m word_end (mk_mst b t cs) Some = if ends_here t && open_text t then Some (mk_mst b t cs) else None.
Proof.
  unfold word_end. rewrite m_seq, look_at. pose proof (ends_ahead b t cs) as P1. pose proof (open_some b t cs) as P2.
  destruct (m end_re (mk_mst b t cs) Some) as [y|]; rewrite <- P1; [|reflexivity]. rewrite look_at. destruct (m open_re (mk_mst b t cs) Some); cbn [some] in P2; rewrite <- P2; reflexivity.
Qed.
Definition caps_lead : re := RAlt (RCls space_c) (RAlt (RAssert SOT) (RCls (list_c [62; 40; 59; 45]))).
Definition caps_word : re := RSeq (RGroup 2 (RSeq (RSeq (RCls upper_c) (RSeq (RCls upper_c) (RCls upper_c))) (RStar true (RCls upper_c)))) (RSeq (RGroup 3 (RStar true (RCls lower_c))) word_end).
Lemma caps_shape : rx_re DYN_3PLUS_RE = RSeq (RGroup 1 caps_lead) caps_word.
Proof. reflexivity. Qed.
Definition small_k (t0 : str) : mst -> option mst := fun s => m word_end (mk_mst (m_before s) (m_after s) ((3%nat, (t0, m_after s)) :: m_caps s)) Some.
Lemma small_at b t cs : m (RSeq (RGroup 3 (RStar true (RCls lower_c))) word_end) (mk_mst b t cs) Some =
  let (z, r2) := run small t in if ends_here r2 && open_text r2 then Some (mk_mst (rev z ++ b) r2 ((3%nat, (t, r2)) :: cs)) else None.
Proof.
  rewrite m_seq, m_group. fold (small_k t). destruct (run small t) as [z r2] eqn:E. destruct (run_split _ _ _ _ E) as (Et & Hw & Hr).
  assert (G : m (RStar true (RCls lower_c)) (mk_mst b (z ++ r2) cs) (small_k t) = small_k t (mk_mst (rev z ++ b) r2 cs)).
  { apply star_run; [eapply run_class; [apply in_lower|exact Hw]|eapply stop_class; [apply in_lower|exact Hr]|]. intros w1 x w2 Ew. unfold small_k. cbn [m_before m_after m_caps]. rewrite word_end_at. rewrite small_end; [reflexivity|]. rewrite Ew, forallb_app in Hw. apply andb_prop in Hw as [_ Hw]. cbn [forallb] in Hw. apply andb_prop in Hw as [Hx _]. exact Hx. }
  rewrite <- Et in G. rewrite G. unfold small_k. cbn [m_before m_after m_caps]. apply word_end_at.
Qed.
Definition caps_k (t0 : str) : mst -> option mst := fun s => m (RSeq (RGroup 3 (RStar true (RCls lower_c))) word_end) (mk_mst (m_before s) (m_after s) ((2%nat, (t0, m_after s)) :: m_caps s)) Some.
Lemma caps_at b t cs : m caps_word (mk_mst b t cs) Some =
  let (w, r) := run capital t in let (z, r2) := run small r in
  if Nat.leb 3 (List.length w) && ends_here r2 && open_text r2 then Some (mk_mst (rev z ++ rev w ++ b) r2 ((3%nat, (r, r2)) :: (2%nat, (t, r)) :: cs)) else None.
Proof.
  unfold caps_word. rewrite m_seq, m_group. fold (caps_k t). destruct (run capital t) as [w r] eqn:E. destruct (run_split _ _ _ _ E) as (Et & Hw & Hr). rewrite Et at 1. clear E.
  rewrite !m_seq. assert (STOP : forall b0 cs0 k, m (RCls upper_c) (mk_mst b0 r cs0) k = None) by (intros b0 cs0 k; destruct r as [|c r]; [apply m_cls_nil|]; rewrite m_cls, in_upper, Hr; reflexivity).
  destruct w as [|c1 w]; [cbn [app]; rewrite STOP; destruct (run small r); reflexivity|]. cbn [forallb] in Hw. apply andb_prop in Hw as [H1 Hw]. cbn [app]. rewrite m_cls, in_upper, H1, m_seq.
  destruct w as [|c2 w]; [cbn [app]; rewrite STOP; destruct (run small r); reflexivity|]. cbn [forallb] in Hw. apply andb_prop in Hw as [H2 Hw]. cbn [app]. rewrite m_cls, in_upper, H2.
  destruct w as [|c3 w]; [cbn [app]; rewrite STOP; destruct (run small r); reflexivity|]. cbn [forallb] in Hw. apply andb_prop in Hw as [H3 Hw]. cbn [app]. rewrite m_cls, in_upper, H3.
  rewrite star_run.
  - unfold caps_k. cbn [m_before m_after m_caps]. rewrite small_at. destruct (run small r) as [z r2]. cbn [List.length Nat.leb andb rev]. rewrite <- !app_assoc. reflexivity.
  - eapply run_class; [apply in_upper|exact Hw].
  - eapply stop_class; [apply in_upper|exact Hr].
  - intros w1 x w2 Ew. unfold caps_k. cbn [m_before m_after m_caps]. rewrite small_at. rewrite Ew, forallb_app in Hw. apply andb_prop in Hw as [_ Hw]. cbn [forallb] in Hw. apply andb_prop in Hw as [Hx _]. cbn [run]. rewrite (capital_small x Hx), capital_end by exact Hx. reflexivity.
Qed.
Section Capitals.
Variable T : textile.
Hypothesis uid_simple : simple_uid (t_uid T).
Hypothesis dyn : caps_set T.
Definition caps_one (x : str * str) : option (str * str) :=
      let (w, r) := run capital (snd x) in
      let (z, r2) := run small r in
      if Nat.leb 3 (List.length w) && ends_here r2 && open_text r2
      then Some (fst x ++ u "<span class=""caps"">" ++ t_uid T ++ u ":glyph:" ++ w ++ u "</span>" ++ z, r2) else None.
Lemma capitals_is prev t : capitals_at (t_uid T) prev t = first_of caps_one (take_one is_ws t ++ match prev with None => [([], t)] | Some _ => [] end ++ take_one (among (u ">(;-")) t).
Proof. reflexivity. Qed.
Definition lead_k (t0 : str) : mst -> option mst := fun s => m caps_word (mk_mst (m_before s) (m_after s) ((1%nat, (t0, m_after s)) :: m_caps s)) Some.
Definition good (t : str) (o : option mst) (h : option (str * str)) : Prop :=
  match h with
  | Some (o', rest) => exists w s, w <> [] /\ t = w ++ rest /\ o = Some s /\ m_after s = rest /\ expand (t_dyn T) (mk_hit_of t s) = o'
  | None => o = None
  end.
Lemma lead_good t b (a r0 : str) : t = a ++ r0 -> good t (lead_k t (mk_mst b r0 [])) (caps_one (a, r0)).
Proof.
  intros Et. unfold lead_k, caps_one. cbn [m_before m_after m_caps fst snd]. rewrite caps_at. destruct (run capital r0) as [w r] eqn:E. destruct (run_split _ _ _ _ E) as (E0 & _ & _). destruct (run small r) as [z r2] eqn:F. destruct (run_split _ _ _ _ F) as (E1 & _ & _).
  destruct (Nat.leb 3 (List.length w)) eqn:L; [|reflexivity]. destruct (ends_here r2); [|reflexivity]. destruct (open_text r2); [|reflexivity]. cbn [andb good].
  exists (a ++ w ++ z). eexists. split; [destruct w; [discriminate|intros Q; apply app_eq_nil in Q as [_ Q]; discriminate]|]. split; [rewrite Et, E0, E1, <- !app_assoc; reflexivity|]. split; [reflexivity|]. split; [reflexivity|].
  rewrite (dyn_expand T uid_simple dyn _ a w z); [unfold open_caps; rewrite <- !app_assoc; reflexivity| | |]; unfold mk_hit_of; cbn [h_caps m_caps].
  - apply (cap_is _ _ _ r0). cbn [find_cap Nat.eqb]. rewrite <- Et. reflexivity.
  - apply (cap_is _ _ _ r). cbn [find_cap Nat.eqb]. rewrite <- E0. reflexivity.
  - apply (cap_is _ _ _ r2). cbn [find_cap Nat.eqb]. rewrite <- E1. reflexivity.
Qed.
Lemma good_or t o o' h h' : good t o h -> good t o' h' -> good t (match o with Some y => Some y | None => o' end) (match h with Some y => Some y | None => h' end).
Proof. intros H H'. destruct h as [[a r]|]; cbn [good] in *; [|rewrite H; exact H']. destruct H as (w & s & H1 & H2 & -> & H3). exists w, s. auto. Qed.
Lemma good_take t b p (K : re) : one_of K p -> good t (m K (mk_mst b t []) (lead_k t)) (first_of caps_one (take_one p t)).
Proof.
  intros H. destruct (H b [] (lead_k t)) as [N1 C1]. destruct t as [|c t]; [exact N1|]. rewrite C1. cbn [take_one]. destruct (p c); [|reflexivity]. cbn [first_of].
  pose proof (good_or _ _ _ _ None (lead_good (c :: t) (c :: b) [c] t eq_refl) (eq_refl : good (c :: t) None None)) as G. destruct (lead_k (c :: t) _); exact G.
Qed.
Lemma first_app {A B} (f : A -> option B) l l' : first_of f (l ++ l') = match first_of f l with Some y => Some y | None => first_of f l' end.
Proof. induction l as [|x l IH]; [reflexivity|]. cbn [app first_of]. rewrite IH. destruct (f x); reflexivity. Qed.
Lemma capitals_ok : at_ok (rx_re DYN_3PLUS_RE) (expand (t_dyn T)) (capitals_at (t_uid T)).
Proof.
  intros before t. unfold match_at. rewrite caps_shape, m_seq, m_group. fold (lead_k t). rewrite capitals_is, !first_app. unfold caps_lead. rewrite !m_alt. apply good_or; [apply good_take, one_ws|]. apply good_or; [|apply good_take; apply (one_among (u ">(;-"))].
  rewrite m_assert. cbn [assert_holds]. destruct before as [|c before]; cbn [hd_error is_empty]; [|reflexivity]. cbn [first_of]. pose proof (good_or _ _ _ _ None (lead_good t [] [] t eq_refl) (eq_refl : good t None None)) as G. destruct (lead_k t _); exact G.
Qed.
(** ** A text between tags *)
Lemma chunk_is t : glyph_chunk T t = typeset (match t_html T with HTML5 => true | XHTML => false end) (t_restricted T) (t_uid T) t.
Proof.
  unfold glyph_chunk, typeset, all_replacers, multi_replace. rewrite fold_left_app. cbn [fold_left fst snd]. unfold replace_tmpl at 1. rewrite (rewrites _ _ _ _ capitals_ok). f_equal. rewrite escaped_is. destruct (t_html T); apply glyphs_all.
Qed.
(** ** Tags *)
Definition tag_c : cls := mk_cls false [CProp false PWord; CRange 47 47; CRange 33 33; CRange 63 63].
Definition line_c : cls := mk_cls true [CRange 10 10].
Lemma splitter_shape : rx_re GLYPH_SPLITTER_RE = RGroup 1 (RSeq (RCls (one 60)) (RSeq (RCls tag_c) (RSeq (RStar false (RCls line_c)) (RCls (one 62))))).
Proof. reflexivity. Qed.
Lemma in_tag d : in_cls tag_c d = word_char d || among (u "/!?") d.
Proof. unfold in_cls, tag_c, among. change (u "/!?") with [47; 33; 63]. cbn [c_neg c_items existsb]. rewrite !in_range. cbn [in_item has_prop]. rewrite !xorb_false_l. reflexivity. Qed.
Lemma tag_match before t : match tag_at t with
  | Some (g, r) => exists s, g <> [] /\ t = g ++ r /\ match_at (rx_re GLYPH_SPLITTER_RE) before t = Some s /\ m_after s = r /\ m_caps s = [(1%nat, (t, r))]
  | None => match_at (rx_re GLYPH_SPLITTER_RE) before t = None end.
Proof.
  unfold match_at. rewrite splitter_shape, m_group, m_seq. destruct t as [|b t]; [apply m_cls_nil|]. rewrite m_cls, in_one. unfold tag_at. destruct t as [|c t]; [destruct (b =? 60); [rewrite m_seq; apply m_cls_nil|reflexivity]|].
  destruct (run (fun d => negb (d =? 10) && negb (d =? 62)) t) as [w r] eqn:E. destruct (run_split _ _ _ _ E) as (Et & Hw & Hr). destruct (b =? 60); [|destruct r; reflexivity]. rewrite m_seq, m_cls, in_tag. cbn [andb]. destruct (word_char c || among (u "/!?") c); [|destruct r; reflexivity]. cbn [andb]. rewrite m_seq.
  set (k := fun s' => m (RCls (one 62)) s' (fun s' => Some (mk_mst (m_before s') (m_after s') ((1%nat, (b :: c :: t, m_after s')) :: m_caps s')))).
  assert (Hw' : forallb (in_cls line_c) w = true). { rewrite forallb_forall in Hw |- *. intros d Hd. unfold line_c. rewrite in_not. specialize (Hw d Hd). apply andb_prop in Hw as [Hw _]. exact Hw. }
  assert (Hn : forall w1 x w2, w = w1 ++ x :: w2 -> forall b0 cs0, k (mk_mst b0 (x :: w2 ++ r) cs0) = None).
  { intros w1 x w2 Ew b0 cs0. unfold k. rewrite m_cls, in_one. rewrite Ew, forallb_app in Hw. apply andb_prop in Hw as [_ Hw]. cbn [forallb] in Hw. apply andb_prop in Hw as [Hx _]. apply andb_prop in Hx as [_ Hx]. apply negb_true_iff in Hx. rewrite Hx. reflexivity. }
  assert (NONE : (forall b0 cs0, k (mk_mst b0 r cs0) = None) -> stops line_c r -> forall b0, m (RStar false (RCls line_c)) (mk_mst b0 t []) k = None).
  { intros Hk Hs b0. rewrite Et. apply m_star_none; [exact Hs|]. intros w1 w2 Ew. destruct w2 as [|x w2]; [apply Hk|]. apply (Hn w1 x w2 Ew). }
  destruct r as [|e r].
  - apply NONE; [intros b0 cs0; apply m_cls_nil|exact I].
  - destruct (N.eqb_spec e 62) as [->|He].
    + eexists. split; [discriminate|]. split; [cbn [app]; rewrite Et at 1; rewrite <- app_assoc; reflexivity|]. split; [|split].
      * assert (G : forall b0 y, k (mk_mst (rev w ++ b0) (62 :: r) []) = Some y -> m (RStar false (RCls line_c)) (mk_mst b0 t []) k = Some y) by (intros b0 y Hk; rewrite Et; apply m_star_lazy; [exact Hw'|intros w1 x w2 Ew; apply (Hn w1 x w2 Ew)|exact Hk]). apply G. unfold k. rewrite m_cls, in_one. reflexivity.
      * reflexivity.
      * reflexivity.
    + apply NONE; [intros b0 cs0; unfold k; rewrite m_cls, in_one; apply N.eqb_neq in He; rewrite He; reflexivity|]. cbn [stops]. unfold line_c. rewrite in_not. apply N.eqb_neq in He. cbv beta iota in Hr. cbn [negb] in Hr. rewrite andb_true_r in Hr. exact Hr.
Qed.
Lemma between_split n : forall t before last acc, (List.length t <= n)%nat ->
  exists ps, split_go 2 (scan (rx_re GLYPH_SPLITTER_RE) before t O last) acc = Some ps /\ List.concat (glyph_chunks T true ps) = between_of (glyph_chunk T) n t acc.
Proof.
  assert (End : forall before last acc n, exists ps, split_go 2 (scan (rx_re GLYPH_SPLITTER_RE) before [] O last) acc = Some ps /\ List.concat (glyph_chunks T true ps) = between_of (glyph_chunk T) n [] acc).
  { intros before last acc n0. rewrite scan_nil. pose proof (tag_match before []) as Q. cbn [tag_at] in Q. rewrite Q. exists [rev acc]. split; [destruct last; reflexivity|]. destruct n0; cbn [between_of glyph_chunks List.concat]; apply app_nil_r. }
  induction n as [|n IH]; intros t before last acc Hn; [destruct t; [apply End|cbn in Hn; lia]|]. destruct t as [|c t]; [apply End|]. cbn [between_of]. pose proof (tag_match before (c :: t)) as Q. destruct (tag_at (c :: t)) as [[g r]|].
  - destruct Q as (s & Hg & E & M & Ma & Mc). rewrite E in M, Mc |- *. rewrite (scan_take _ before g r s last Hg M Ma).
    destruct (IH r (rev g ++ before) true []) as (ps & P1 & P2). { apply (f_equal (@List.length N)) in E. rewrite app_length in E. destruct g; [congruence|]. cbn [List.length] in *. lia. }
    exists (rev acc :: g :: ps). split.
    + assert (CT : cap_text 1 (m_caps s) = Some g) by (rewrite Mc; apply (cap_is _ _ _ r); reflexivity).
      cbn [split_go]. unfold mk_hit_of. cbn [h_caps]. change (seq 1 (2 - 1)) with [1%nat]. cbn [map forallb]. rewrite CT. cbn [andb]. rewrite P1. reflexivity.
    + cbn [glyph_chunks List.concat negb]. rewrite P2. reflexivity.
  - rewrite scan_cons, Q. cbn [split_go]. apply IH. cbn in Hn. lia.
Qed.
Lemma between_ext f f' : (forall t, f t = f' t) -> forall n t acc, between_of f n t acc = between_of f' n t acc.
Proof. intros H. induction n as [|n IH]; intros t acc; [apply H|]. destruct t as [|c t]; [apply H|]. cbn [between_of]. destruct (tag_at (c :: t)) as [[g r]|]; rewrite IH; [rewrite H|]; reflexivity. Qed.
Lemma glyphs_exact text s : glyphs T text s = Ret (between_tags (typeset (match t_html T with HTML5 => true | XHTML => false end) (t_restricted T) (t_uid T)) (trim_end_matches 10 text)) s.
Proof.
  unfold glyphs, splitM, split_rx, segs. change (rx_len GLYPH_SPLITTER_RE) with 2%nat. destruct (between_split _ (trim_end_matches 10 text) [] false [] (le_n _)) as (ps & P1 & P2). unfold bind. rewrite P1. cbn [of_opt]. unfold ret. rewrite P2. unfold between_tags. rewrite (between_ext _ _ chunk_is). reflexivity.
Qed.
End Capitals.
