(** Straight quotes in the replacement of glyphs. *)
From Verif Require Import Str Unicode Regex RegexParse RegexSnips RegexTheory RegexGroups Lib ModelBase ModelHtml ModelInline SpecParse ProofParse SpecRegex ProofRegex SpecPlain ProofPlain ProofDoc ProofParas ProofTags ProofWeave SpecGlyphs.
#[local] Arguments u : simpl never.

(** ** Characters *)
Section Chars.
Variable P : N -> bool.
Notation all := (forallb P).
Lemma all_firstn n x : all x = true -> all (firstn n x) = true.
Proof. intros H. apply forallb_forall. intros c Hc. rewrite forallb_forall in H. apply H. rewrite <- (firstn_skipn n x). apply in_or_app. left. exact Hc. Qed.
Lemma all_cap v : all (fst v) = true -> all (cap_str v) = true.
Proof. intros H. unfold cap_str. apply all_firstn. exact H. Qed.
Definition caps_all (cs : list (nat * (str * str))) : Prop := forall n v, find_cap n cs = Some v -> all (fst v) = true.
Lemma mat_caps r s s' : Mat r s s' -> all (m_after s) = true -> caps_all (m_caps s) -> all (m_after s') = true /\ caps_all (m_caps s').
Proof.
  induction 1 as [s|k s x rest Ha Hk|a b s s1 s2 H1 IH1 H2 IH2|a b s s1 H1 IH1|a b s s1 H1 IH1
                 |g a s|g a s s1 s2 H1 IH1 H2 IH2|n a s s1 H1 IH1|n s v s1 Hf He|a s s1 H1 IH1
                 |a s Hm|k s x rest Hb Hk|a s Has]; intros A C; auto.
  - rewrite Ha in A. cbn [forallb] in A. apply andb_prop in A as [_ A]. split; [exact A|exact C].
  - destruct (IH1 A C) as [A1 C1]. auto.
  - destruct (IH1 A C) as [A1 C1]. auto.
  - destruct (IH1 A C) as [A1 C1]. cbn [m_after m_caps]. split; [exact A1|]. intros n0 v E. cbn [find_cap] in E. destruct (Nat.eqb n n0); [|apply (C1 n0); exact E]. assert (v = (m_after s, m_after s1)) as -> by congruence. exact A.
  - apply eat_lit_moved in He as [[Hm _] Hc]. rewrite Hc. split; [|exact C]. rewrite Hm, forallb_app in A. apply andb_prop in A. apply A.
Qed.
Lemma hit_all r text h : In (Hit h) (segs r text) -> all text = true -> all (h_text h) = true /\ (forall n t, cap_text n (h_caps h) = Some t -> all t = true).
Proof.
  intros H A. apply segs_hit in H as (w & v & s & -> & E & ->). rewrite forallb_app in A. apply andb_prop in A as [_ A]. apply match_at_sound in E. apply mat_caps in E as [_ C]; [|exact A|intros n0 v0 F; discriminate].
  split; [apply all_cap; exact A|]. intros n t Ht. unfold cap_text, mk_hit_of in Ht. cbn [h_caps] in Ht. destruct (find_cap n (m_caps s)) as [v0|] eqn:F; [|discriminate]. cbn [option_map] in Ht. assert (t = cap_str v0) as -> by congruence. apply all_cap, (C n). exact F.
Qed.
Lemma expand_all t h : all (36 :: t) = true -> (forall id, all (group_text id h) = true) -> forall k, all (expand_go t k h) = true.
Proof.
  intros A G. cbn [forallb] in A. apply andb_prop in A as [A36 A]. induction t as [|c t IH]; intros k; [reflexivity|]. cbn [forallb] in A. apply andb_prop in A as [Ac A]. specialize (IH A). cbn [expand_go].
  destruct k as [|k]; [|apply IH]. assert (D : all (36 :: expand_go t 0 h) = true) by (cbn [forallb]; rewrite A36; apply IH).
  destruct (c =? 36); [|cbn [forallb]; rewrite Ac; apply IH].
  assert (F : forall id, all (match id with [] => 36 :: expand_go t 0 h | _ => group_text id h ++ expand_go t (List.length id) h end) = true) by (intros [|i id]; [exact D|rewrite forallb_app, G; apply IH]).
  assert (F2 : forall id n, all (match id with [] => 36 :: expand_go t 0 h | _ => group_text id h ++ expand_go t n h end) = true) by (intros [|i id] n; [exact D|rewrite forallb_app, G; apply IH]).
  repeat match goal with |- all (match ?x with _ => _ end) = true => match x with take_id _ => fail 1 | _ => destruct x end end; try apply F; try exact D; try apply F2.
  all: cbn [forallb]; rewrite A36; apply IH.
Qed.
Lemma group_all h : all (h_text h) = true -> (forall n t, cap_text n (h_caps h) = Some t -> all t = true) -> forall id, all (group_text id h) = true.
Proof.
  intros H1 H2 id. unfold group_text. destruct (parse_uint u32_max id) as [n|]; [|reflexivity]. destruct n as [|p]; [exact H1|]. destruct (cap_text (N.to_nat (N.pos p)) (h_caps h)) eqn:E; [apply (H2 _ _ E)|reflexivity].
Qed.
Lemma lit_in r text c : In (Lit c) (segs r text) -> In c text.
Proof. intros H. rewrite <- (segs_text r text). apply in_flat_map. exists (Lit c). split; [exact H|left; reflexivity]. Qed.
Lemma tmpl_all r t text : all (36 :: t) = true -> all text = true -> all (replace_tmpl r t text) = true.
Proof.
  intros Ht A. apply forallb_forall. intros c Hc. unfold replace_tmpl, replace_all in Hc. apply in_flat_map in Hc as ([d|h] & Hg & Hc).
  - destruct Hc as [<-|[]]. rewrite forallb_forall in A. apply A, (lit_in r), Hg.
  - destruct (hit_all r text h Hg A) as [H1 H2]. pose proof (expand_all t h Ht (group_all h H1 H2) 0) as E. rewrite forallb_forall in E. apply E. exact Hc.
Qed.
End Chars.
(** One character replaced everywhere. *)
Lemma scan_no_lit d k : (forall c, in_cls k c = true <-> c = d) -> forall text before last, ~ In (Lit d) (scan (RCls k) before text O last).
Proof.
  intros Hk. assert (Hd : in_cls k d = true) by (apply Hk; reflexivity). induction text as [|c text IH]; intros before last H.
  - rewrite scan_nil in H. destruct last; [destruct H|]. unfold match_at in H. rewrite m_cls_nil in H. destruct H.
  - rewrite scan_cons in H. unfold match_at in H. rewrite m_cls in H. destruct (in_cls k c) eqn:E.
    + assert (Eh : h_text (mk_hit_of (c :: text) (mk_mst (c :: before) text [])) = [c]) by (unfold mk_hit_of; cbn [h_text m_after]; apply (cap_str_app [c])). rewrite Eh in H. destruct H as [H|H]; [discriminate|]. exact (IH _ _ H).
    + destruct H as [H|H]; [|exact (IH _ _ H)]. injection H as ->. rewrite Hd in E. discriminate.
Qed.
Lemma tmpl_char P d k t text : (forall c, in_cls k c = true <-> c = d) -> ~ In 36 t -> forallb P t = true -> (forall c, In c text -> c <> d -> P c = true) -> forallb P (replace_tmpl (RCls k) t text) = true.
Proof.
  intros Hk H36 Ht H. apply forallb_forall. intros c Hc. unfold replace_tmpl, replace_all in Hc. apply in_flat_map in Hc as ([x|h] & Hg & Hc).
  - destruct Hc as [<-|[]]. apply H; [apply (lit_in (RCls k)), Hg|]. intros ->. revert Hg. apply scan_no_lit. exact Hk.
  - assert (expand t h = t) as E.
    { unfold expand. clear - H36. induction t as [|a t IH]; [reflexivity|]. cbn [expand_go]. destruct (N.eqb_spec a 36) as [->|]; [exfalso; apply H36; left; reflexivity|]. rewrite IH; [reflexivity|intros F; apply H36; right; exact F]. }
    rewrite E in Hc. rewrite forallb_forall in Ht. apply Ht. exact Hc.
Qed.
Definition not_39 (c : N) : bool := negb (c =? 39).
Definition no_quote (c : N) : bool := negb (c =? 39) && negb (c =? 34).
Lemma sopen_cls : exists k, rx_re GL_SOPEN = RCls k /\ forall c, in_cls k c = true <-> c = 39.
Proof. exists (one 39). split; [reflexivity|]. intros c. rewrite in_one. apply N.eqb_eq. Qed.
Lemma dopen_cls : exists k, rx_re GL_DOPEN = RCls k /\ forall c, in_cls k c = true <-> c = 34.
Proof. exists (one 34). split; [reflexivity|]. intros c. rewrite in_one. apply N.eqb_eq. Qed.
Definition before_s : list (rx * str) := firstn 5 (glyph_replacers true).
Definition before_d : list (rx * str) := firstn 2 (skipn 6 (glyph_replacers true)).
Definition after_d : list (rx * str) := firstn 12 (skipn 9 (glyph_replacers true)).
Lemma replacers_shape b : glyph_replacers b = before_s ++ (GL_SOPEN, u "&#8216;") :: before_d ++ (GL_DOPEN, u "&#8220;") :: after_d ++ [(GL_ACRONYM, u "<" ++ (if b then u "abbr" else u "acronym") ++ u " title=""$2"">$1</" ++ (if b then u "abbr" else u "acronym") ++ u ">")].
Proof. destruct b; reflexivity. Qed.
Lemma multi_app text a b : multi_replace text (a ++ b) = multi_replace (multi_replace text a) b.
Proof. unfold multi_replace. apply fold_left_app. Qed.
Lemma multi_all P l : forallb (fun x => forallb P (36 :: snd x)) l = true -> forall text, forallb P text = true -> forallb P (multi_replace text l) = true.
Proof.
  induction l as [|x l IH]; intros H text A; [exact A|]. cbn [forallb] in H. apply andb_prop in H as [H1 H2]. unfold multi_replace. cbn [fold_left]. apply (IH H2). apply tmpl_all; [exact H1|exact A].
Qed.
(** Before the acronyms there is no straight quote. *)
Lemma quotes_gone text : exists x, forallb no_quote x = true /\ (~ In 60 text -> ~ In 60 x) /\
  forall b, multi_replace text (glyph_replacers b) = replace_tmpl (rx_re GL_ACRONYM) (u "<" ++ (if b then u "abbr" else u "acronym") ++ u " title=""$2"">$1</" ++ (if b then u "abbr" else u "acronym") ++ u ">") x.
Proof.
  set (pre := before_s ++ (GL_SOPEN, u "&#8216;") :: before_d ++ (GL_DOPEN, u "&#8220;") :: after_d). exists (multi_replace text pre). split; [|split].
  - unfold pre. set (x1 := multi_replace text before_s). rewrite multi_app. fold x1. change ((GL_SOPEN, u "&#8216;") :: before_d ++ (GL_DOPEN, u "&#8220;") :: after_d) with ([(GL_SOPEN, u "&#8216;")] ++ before_d ++ [(GL_DOPEN, u "&#8220;")] ++ after_d).
    rewrite !multi_app. apply multi_all; [vm_compute; reflexivity|]. unfold multi_replace at 1. cbn [fold_left fst snd]. destruct dopen_cls as (k2 & E2 & K2). rewrite E2. apply (tmpl_char no_quote 34 k2); [exact K2| |vm_compute; reflexivity|].
    { intros F. apply (in_map (fun c => c =? 36)) in F. vm_compute in F. intuition discriminate. }
    intros c Hc Hn. unfold no_quote. assert (A : forallb not_39 (multi_replace (multi_replace x1 [(GL_SOPEN, u "&#8216;")]) before_d) = true).
    { apply multi_all; [vm_compute; reflexivity|]. unfold multi_replace. cbn [fold_left fst snd]. destruct sopen_cls as (k1 & E1 & K1). rewrite E1. apply (tmpl_char not_39 39 k1); [exact K1| |vm_compute; reflexivity|].
      - intros F. apply (in_map (fun c => c =? 36)) in F. vm_compute in F. intuition discriminate.
      - intros d _ Hd. unfold not_39. apply N.eqb_neq in Hd. rewrite Hd. reflexivity. }
    rewrite forallb_forall in A. apply A in Hc. unfold not_39 in Hc. rewrite Hc. apply N.eqb_neq in Hn. rewrite Hn. reflexivity.
  - intros H F. assert (A : forallb (fun c => negb (c =? 60)) (multi_replace text pre) = true).
    { apply multi_all; [vm_compute; reflexivity|]. apply forallb_forall. intros c Hc. destruct (N.eqb_spec c 60) as [->|]; [contradiction|reflexivity]. }
    rewrite forallb_forall in A. apply A in F. discriminate.
  - intros b. rewrite replacers_shape. fold pre. change (before_s ++ (GL_SOPEN, u "&#8216;") :: before_d ++ (GL_DOPEN, u "&#8220;") :: after_d ++ [(GL_ACRONYM, u "<" ++ (if b then u "abbr" else u "acronym") ++ u " title=""$2"">$1</" ++ (if b then u "abbr" else u "acronym") ++ u ">")])
      with (pre ++ [(GL_ACRONYM, u "<" ++ (if b then u "abbr" else u "acronym") ++ u " title=""$2"">$1</" ++ (if b then u "abbr" else u "acronym") ++ u ">")]). rewrite multi_app. reflexivity.
Qed.

(** ** Acronyms *)
Lemma clean_chars x : forallb no_quote x = true -> clean x.
Proof.
  induction x as [|c x IH]; intros H; [constructor|]. cbn [forallb] in H. apply andb_prop in H as [Hc H]. unfold no_quote in Hc. apply andb_prop in Hc as [H1 H2]. apply negb_true_iff, N.eqb_neq in H1, H2. constructor; auto.
Qed.
Lemma clean_app a b : clean a -> clean b -> clean (a ++ b).
Proof.
  intros A B. induction A as [|c x H1 H2 A IH|name w x Hn Hw A IH|x A IH]; [exact B|constructor; auto| |].
  - rewrite <- !app_assoc. apply CleanTitle; auto.
  - rewrite <- app_assoc. apply CleanCaps. exact IH.
Qed.
Definition text_char (c : N) : bool := no_quote c && negb (c =? 60).
Lemma text_quote x : forallb text_char x = true -> forallb no_quote x = true.
Proof. rewrite !forallb_forall. intros H c Hc. specialize (H c Hc). unfold text_char in H. apply andb_prop in H. apply H. Qed.
Lemma clean_acronyms (b : bool) x : forallb text_char x = true -> clean (replace_tmpl (rx_re GL_ACRONYM) (u "<" ++ (if b then u "abbr" else u "acronym") ++ u " title=""$2"">$1</" ++ (if b then u "abbr" else u "acronym") ++ u ">") x).
Proof.
  intros A. unfold replace_tmpl, replace_all. assert (G : forall g, In g (segs (rx_re GL_ACRONYM) x) -> clean (match g with Lit c => [c] | Hit h => expand (u "<" ++ (if b then u "abbr" else u "acronym") ++ u " title=""$2"">$1</" ++ (if b then u "abbr" else u "acronym") ++ u ">") h end)).
  { intros [c|h] Hg.
    - apply clean_chars. cbn [forallb]. apply lit_in in Hg. apply text_quote in A. rewrite forallb_forall in A. rewrite (A c Hg). reflexivity.
    - destruct (hit_all text_char _ _ _ Hg A) as [H1 H2]. pose proof (group_all text_char h H1 H2) as Gr.
      assert (expand (u "<" ++ (if b then u "abbr" else u "acronym") ++ u " title=""$2"">$1</" ++ (if b then u "abbr" else u "acronym") ++ u ">") h =
        u "<" ++ (if b then u "abbr" else u "acronym") ++ u " title=""" ++ group_text (u "2") h ++ u """>" ++ group_text (u "1") h ++ u "</" ++ (if b then u "abbr" else u "acronym") ++ u ">") as -> by (destruct b; reflexivity).
      apply CleanTitle; [destruct b; auto| |].
      + intros c Hc. specialize (Gr (u "2")). rewrite forallb_forall in Gr. specialize (Gr c Hc). unfold text_char, no_quote in Gr. apply andb_prop in Gr as [Gr G3]. apply andb_prop in Gr as [G1 G2]. apply negb_true_iff, N.eqb_neq in G1, G2, G3. auto.
      + apply clean_app; [apply clean_chars, text_quote, Gr|]. apply clean_chars. destruct b; vm_compute; reflexivity. }
  induction (segs (rx_re GL_ACRONYM) x) as [|g l IH]; [constructor|]. cbn [flat_map]. apply clean_app; [apply G; left; reflexivity|]. apply IH. intros g' Hg. apply G. right. exact Hg.
Qed.

(** ** Words in capitals *)
Definition ahead (x : str) : Prop := exists v r, x = v ++ r /\ ~ In 34 v /\ (r = [] \/ exists r', r = 60 :: r').
Definition upper (c : N) : bool := in_cls (mk_cls false [CProp false PLu]) c.
Section Caps.
Variables F1 F2 : str.
Inductive ins : str -> str -> Prop :=
| InsNil : ins [] []
| InsChar c x y : ins x y -> ins (c :: x) (c :: y)
| InsOpen c x y : upper c = true -> ahead (c :: x) -> ins x y -> ins (c :: x) (F1 ++ c :: y)
| InsClose c x y : upper c = true -> ahead x -> ins x y -> ins (c :: x) (c :: F2 ++ y).
Lemma ins_same w x y : ins x y -> ins (w ++ x) (w ++ y).
Proof. intros H. induction w as [|c w IH]; [exact H|]. apply InsChar. exact IH. Qed.
Lemma ins_low a : existsb upper a = false -> forall x y, ins (a ++ x) y -> exists y', y = a ++ y' /\ ins x y'.
Proof.
  induction a as [|c a IH]; intros H x y I; [exists y; auto|]. cbn [existsb] in H. apply orb_false_iff in H as [Hc H]. cbn [app] in I. inversion I as [|c0 x0 y0 I0|c0 x0 y0 Hu Ha I0|c0 x0 y0 Hu Ha I0]; subst; try congruence.
  destruct (IH H x y0 I0) as (y' & -> & I'). exists y'. auto.
Qed.
Lemma not_ahead w x : ~ In 60 w -> ~ ahead (w ++ 34 :: x).
Proof.
  intros H (v & r & E & Hv & Hr). apply app_eq_app in E as [l [[E1 E2]|[E1 E2]]].
  - destruct Hr as [->|(r' & ->)]; [destruct l; discriminate|]. destruct l as [|c l]; [discriminate|]. injection E2 as E2 _; subst c. apply H. rewrite E1. apply in_or_app. right. left. reflexivity.
  - destruct l as [|c l].
    + destruct Hr as [->|(r' & ->)]; discriminate.
    + injection E2 as E2 _; subst c. apply Hv. rewrite E1. apply in_or_app. right. left. reflexivity.
Qed.
Lemma ins_title w x y : ~ In 60 w -> ins (w ++ 34 :: x) y -> exists y', y = w ++ 34 :: y' /\ ins x y'.
Proof.
  revert y. induction w as [|c w IH]; intros y H I; cbn [app] in I.
  - inversion I as [|c0 x0 y0 I0|c0 x0 y0 Hu Ha I0|c0 x0 y0 Hu Ha I0]; subst; [exists y0; auto|discriminate|discriminate].
  - assert (Hw : ~ In 60 w) by (intros F; apply H; right; exact F). inversion I as [|c0 x0 y0 I0|c0 x0 y0 Hu Ha I0|c0 x0 y0 Hu Ha I0]; subst.
    + destruct (IH y0 Hw I0) as (y' & -> & I'). exists y'. auto.
    + destruct (not_ahead (c :: w) x H Ha).
    + destruct (not_ahead w x Hw Ha).
Qed.
Hypothesis clean_1 : forall x, clean x -> clean (F1 ++ x).
Hypothesis clean_2 : forall x, clean x -> clean (F2 ++ x).
Lemma clean_ins x : clean x -> forall y, ins x y -> clean y.
Proof.
  intros A. induction A as [|c x H1 H2 A IH|name w x Hn Hw A IH|x A IH]; intros y I.
  - inversion I; subst; constructor.
  - inversion I as [|c0 x0 y0 I0|c0 x0 y0 Hu Ha I0|c0 x0 y0 Hu Ha I0]; subst; [constructor; auto|apply clean_1; constructor; auto|constructor; auto].
  - assert (existsb upper (u "<") = false /\ existsb upper name = false /\ existsb upper (u " title=""") = false) as (U1 & U2 & U3) by (destruct Hn as [->| ->]; vm_compute; auto).
    apply ins_low in I as (y1 & -> & I); [|exact U1]. apply ins_low in I as (y2 & -> & I); [|exact U2]. apply ins_low in I as (y3 & -> & I); [|exact U3].
    change (u """>" ++ x) with (34 :: [62] ++ x) in I. apply ins_title in I as (y4 & -> & I); [|intros F; apply Hw in F; tauto]. apply ins_low in I as (y5 & -> & I); [|vm_compute; reflexivity].
    change (34 :: [62] ++ y5) with (u """>" ++ y5). apply CleanTitle; auto.
  - apply ins_low in I as (y1 & -> & I); [|vm_compute; reflexivity]. apply CleanCaps. apply IH. exact I.
Qed.
End Caps.
(** A relation between a text and the text with all matches replaced. *)
Lemma scan_rel r f (R : str -> str -> Prop) : R [] [] -> (forall c x y, R x y -> R (c :: x) (c :: y)) ->
  (forall before w v s, match_at r before (w ++ v) = Some s -> m_after s = v -> w <> [] /\ forall y, R v y -> R (w ++ v) (f (mk_hit_of (w ++ v) s) ++ y)) ->
  forall text, R text (replace_all r f text).
Proof.
  intros H0 H1 H2 text. unfold replace_all, segs. cut (forall n text, (List.length text <= n)%nat -> forall last before, R text (flat_map (fun g => match g with Lit c => [c] | Hit h => f h end) (scan r before text 0 last))); [intros C; eapply C; apply le_n|].
  clear text. intros n. induction n as [|n IH]; intros text Hn last before.
  - destruct text; [|cbn [List.length] in Hn; lia]. rewrite scan_nil. destruct last; [exact H0|]. destruct (match_at r before []) as [s|] eqn:E; [|exact H0].
    destruct (match_at_moved _ _ _ _ E) as (w & E1 & _). symmetry in E1. apply app_eq_nil in E1 as [-> E1]. destruct (H2 before [] [] s E E1) as [F _]. congruence.
  - destruct text as [|c rest].
    { rewrite scan_nil. destruct last; [exact H0|]. destruct (match_at r before []) as [s|] eqn:E; [|exact H0].
      destruct (match_at_moved _ _ _ _ E) as (w & E1 & _). symmetry in E1. apply app_eq_nil in E1 as [-> E1]. destruct (H2 before [] [] s E E1) as [F _]. congruence. }
    cbn [List.length] in Hn. rewrite scan_cons. destruct (match_at r before (c :: rest)) as [s|] eqn:E; [|cbn [flat_map app]; apply H1, IH; lia].
    destruct (match_at_moved _ _ _ _ E) as (w & E1 & _ & E3). rewrite E3. rewrite E1 in E. destruct (H2 before w (m_after s) s E eq_refl) as [Hw HR]. destruct w as [|x w]; [congruence|]. cbn [flat_map]. rewrite E1. apply HR. apply IH.
    apply (f_equal (@List.length N)) in E1. rewrite app_length in E1. cbn [List.length] in E1. lia.
Qed.
Fixpoint no_group (r : re) : bool := match r with RSeq a b | RAlt a b => no_group a && no_group b | RStar _ a => no_group a | RGroup _ _ => false | _ => true end.
Lemma mat_no_group r s s' : Mat r s s' -> no_group r = true -> m_caps s' = m_caps s.
Proof.
  induction 1 as [s|k s x rest Ha Hk|a b s s1 s2 H1 IH1 H2 IH2|a b s s1 H1 IH1|a b s s1 H1 IH1
                 |g a s|g a s s1 s2 H1 IH1 H2 IH2|n a s s1 H1 IH1|n s v s1 Hf He|a s s1 H1 IH1
                 |a s Hm|k s x rest Hb Hk|a s Has]; cbn [no_group]; intros N; try apply andb_prop in N as [N1 N2]; auto; try discriminate.
  - rewrite IH2, IH1; auto.
  - rewrite IH2, IH1; auto.
  - apply eat_lit_moved in He. apply He.
Qed.
Notation up := (RCls (mk_cls false [CProp false PLu])).
Lemma dyn_shape : exists g1 look, rx_re DYN_3PLUS_RE = RSeq (RGroup 1 g1) (RSeq (RGroup 2 (RSeq (RSeq up (RSeq up up)) (RStar true up))) (RSeq (RGroup 3 (RStar true (RCls (mk_cls false [CProp false PLl]))))
  (RSeq (RLook look) (RLook (RSeq (RStar false (RCls (mk_cls true [CRange 34 34; CRange 62 62]))) (RGroup 4 (RAlt (RCls (mk_cls false [CRange 60 60])) (RAssert EOT)))))))) /\ no_group g1 = true.
Proof. eexists _, _. split; reflexivity. Qed.

Lemma star_cls k s s' : Mat (RStar true (RCls k)) s s' \/ Mat (RStar false (RCls k)) s s' -> exists w, forallb (in_cls k) w = true /\ m_after s = w ++ m_after s'.
Proof.
  intros H. assert (G : forall g, Mat (RStar g (RCls k)) s s' -> exists w, forallb (in_cls k) w = true /\ m_after s = w ++ m_after s'); [|destruct H as [H|H]; exact (G _ H)].
  clear H. intros g H. remember (RStar g (RCls k)) as r eqn:Er. induction H; try discriminate.
  - exists []. split; reflexivity.
  - injection Er as Eg Ea. subst. inversion H; subst. destruct IHMat2 as (w & Hw & E); [reflexivity|]. exists (x :: w). cbn [forallb app]. cbn [step m_after] in E. rewrite <- E. split; [|assumption]. rewrite Hw, andb_true_r. assumption.
Qed.
Lemma mat_seq a b s s' : Mat (RSeq a b) s s' -> exists s1, Mat a s s1 /\ Mat b s1 s'.
Proof. intros H. inversion H; subst. eauto. Qed.
Lemma mat_cls k s s' : Mat (RCls k) s s' -> exists x, in_cls k x = true /\ m_after s = x :: m_after s'.
Proof. intros H. inversion H; subst. eauto. Qed.
Lemma mat_group n a s s' : no_group a = true -> Mat (RGroup n a) s s' -> exists s1, Mat a s s1 /\ m_after s1 = m_after s' /\ m_caps s' = (n, (m_after s, m_after s')) :: m_caps s.
Proof. intros N H. inversion H as [| | | | | | |n0 a0 s0 s1 H1| | | | |]; subst. exists s1. cbn [m_after m_caps]. rewrite (mat_no_group _ _ _ H1 N). auto. Qed.
Lemma mat_look a s s' : Mat (RLook a) s s' -> s' = s /\ exists s1, Mat a s s1.
Proof. intros H. inversion H; subst. eauto. Qed.
Lemma mat_after r s s' : Mat r s s' -> exists w, m_after s = w ++ m_after s'.
Proof. intros H. apply Mat_moved in H as (w & H & _). eauto. Qed.
Lemma dyn_hit before text s : match_at (rx_re DYN_3PLUS_RE) before text = Some s -> exists g1 c1 g2 c2 g3, text = g1 ++ (c1 :: g2 ++ [c2]) ++ g3 ++ m_after s /\
  upper c1 = true /\ upper c2 = true /\ ahead (g2 ++ [c2] ++ g3 ++ m_after s) /\ ahead (g3 ++ m_after s) /\
  cap_text 1 (m_caps s) = Some g1 /\ cap_text 2 (m_caps s) = Some (c1 :: g2 ++ [c2]) /\ cap_text 3 (m_caps s) = Some g3.
Proof.
  intros H. apply match_at_sound in H. destruct dyn_shape as (r1 & rl & Es & N1). rewrite Es in H.
  apply mat_seq in H as (s1 & X1 & H). apply mat_seq in H as (s2 & X2 & H). apply mat_seq in H as (s3 & X3 & H). apply mat_seq in H as (s4 & X4 & X5). apply mat_look in X4 as [-> _]. apply mat_look in X5 as [-> (s5 & X5)].
  apply mat_group in X1 as (t1 & X1 & A1 & C1); [|exact N1]. apply mat_group in X2 as (t2 & X2 & A2 & C2); [|reflexivity]. apply mat_group in X3 as (t3 & X3 & A3 & C3); [|reflexivity].
  apply mat_after in X1 as (g1 & E1). rewrite A1 in E1. cbn [m_after] in E1.
  apply mat_seq in X2 as (t4 & X2 & Y4). apply mat_seq in X2 as (t5 & X2 & Y5). apply mat_seq in Y5 as (t6 & Y5 & Y6). apply mat_cls in X2 as (c1 & U1 & E5). apply mat_cls in Y5 as (d1 & U2 & E6). apply mat_cls in Y6 as (d2 & U3 & E7).
  destruct (star_cls _ _ _ (or_introl Y4)) as (w & Uw & E8). destruct (star_cls _ _ _ (or_introl X3)) as (g3 & U9 & E9). rewrite A2 in E8. rewrite A3 in E9.
  assert (exists g2 c2, c1 :: d1 :: d2 :: w = c1 :: g2 ++ [c2] /\ upper c2 = true /\ forallb upper g2 = true) as (g2 & c2 & Ew & Uc & Ug).
  { destruct w as [|z w _] using rev_ind; [exists [d1], d2; repeat split; [exact U3|cbn [forallb]; unfold upper; rewrite U2; reflexivity]|]. rewrite forallb_app in Uw. apply andb_prop in Uw as [Uw Uz]. cbn [forallb] in Uz. rewrite andb_true_r in Uz.
    exists (d1 :: d2 :: w), z. repeat split; [exact Uz|]. cbn [forallb]. unfold upper at 1 2. rewrite U2, U3. exact Uw. }
  assert (E2 : m_after s1 = (c1 :: g2 ++ [c2]) ++ m_after s2) by (rewrite <- Ew, E5, E6, E7, E8; reflexivity). cbn [m_after m_caps] in *.
  assert (Q : forall k, in_cls k 34 = false -> forall l, forallb (in_cls k) l = true -> ~ In 34 l) by (intros k K l L F; rewrite forallb_forall in L; apply L in F; congruence).
  assert (A0 : ahead (m_after s3)).
  { apply mat_seq in X5 as (t7 & X5 & Y7). destruct (star_cls _ _ _ (or_intror X5)) as (v & Hv & Ev). exists v, (m_after t7). split; [exact Ev|]. split; [eapply Q; [|exact Hv]; reflexivity|].
    inversion Y7 as [| | | | | | |n0 a0 s0 t8 Z| | | | |]; subst. inversion Z as [| | |a0 b0 s0 s6 Z1|a0 b0 s0 s6 Z1| | | | | | | |]; subst.
    - right. apply mat_cls in Z1 as (x & Hx & ->). exists (m_after t8). f_equal. change (in_cls (one 60) x = true) in Hx. rewrite in_one in Hx. apply N.eqb_eq. exact Hx.
    - left. inversion Z1; subst. cbn [assert_holds] in *. destruct (m_after t8); [reflexivity|discriminate]. }
  assert (AP : forall l x, ~ In 34 l -> ahead x -> ahead (l ++ x)).
  { intros l x Hl (v & r & -> & Hv & Hr). exists (l ++ v), r. rewrite app_assoc. split; [reflexivity|]. split; [|exact Hr]. intros F. apply in_app_or in F as [F|F]; contradiction. }
  assert (A4 : ahead (g3 ++ m_after s3)) by (apply AP; [eapply Q; [|exact U9]; vm_compute; reflexivity|exact A0]).
  exists g1, c1, g2, c2, g3. split; [rewrite E1, E2, E9; reflexivity|]. split; [exact U1|]. split; [exact Uc|]. split.
  { rewrite app_assoc. apply AP; [|exact A4]. apply (Q (mk_cls false [CProp false PLu])); [vm_compute; reflexivity|]. change (forallb upper (g2 ++ [c2]) = true). rewrite forallb_app, Ug. cbn [forallb]. rewrite Uc. reflexivity. }
  split; [exact A4|]. unfold cap_text. rewrite C3, C2, C1. cbn [find_cap Nat.eqb option_map]. repeat split; f_equal.
  - rewrite E1. apply cap_str_app.
  - rewrite E2. apply cap_str_app.
  - rewrite E9. apply cap_str_app.
Qed.

Lemma expand_lit a b h : ~ In 36 a -> expand_go (a ++ b) 0 h = a ++ expand_go b 0 h.
Proof.
  induction a as [|c a IH]; intros H; [reflexivity|]. cbn [app expand_go]. destruct (N.eqb_spec c 36) as [->|]; [exfalso; apply H; left; reflexivity|]. rewrite IH; [reflexivity|intros F; apply H; right; exact F].
Qed.
Lemma group_cap n h t : cap_text n (h_caps h) = Some t -> (n = 1 \/ n = 2 \/ n = 3)%nat -> group_text (dec (N.of_nat n)) h = t.
Proof.
  intros E [->|[->| ->]]; unfold group_text.
  - change (parse_uint u32_max (dec (N.of_nat 1))) with (Some 1). cbv iota. change (N.to_nat 1) with 1%nat. rewrite E. reflexivity.
  - change (parse_uint u32_max (dec (N.of_nat 2))) with (Some 2). cbv iota. change (N.to_nat 2) with 2%nat. rewrite E. reflexivity.
  - change (parse_uint u32_max (dec (N.of_nat 3))) with (Some 3). cbv iota. change (N.to_nat 3) with 3%nat. rewrite E. reflexivity.
Qed.
Section Chunks.
Variable T : textile.
Hypothesis uid_simple : simple_uid (t_uid T).
Hypothesis dyn : caps_set T.
Definition open_caps : str := u "<span class=""caps"">" ++ t_uid T ++ u ":glyph:".
Lemma uid_text c : In c (t_uid T) -> no_quote c = true /\ c <> 36.
Proof.
  destruct uid_simple as (id & -> & Hid). assert (K : forallb (fun c => no_quote c && negb (c =? 36)) (u "textileRef:" ++ id_chars ++ u ":") = true) by (vm_compute; reflexivity). rewrite forallb_forall in K. intros Hc.
  assert (In c (u "textileRef:" ++ id_chars ++ u ":")) as Hi. { rewrite !in_app_iff in *. destruct Hc as [Hc|[Hc|Hc]]; auto. }
  apply K in Hi. apply andb_prop in Hi as [H1 H2]. apply negb_true_iff, N.eqb_neq in H2. auto.
Qed.
Lemma dyn_expand h g1 g2 g3 : cap_text 1 (h_caps h) = Some g1 -> cap_text 2 (h_caps h) = Some g2 -> cap_text 3 (h_caps h) = Some g3 ->
  expand (t_dyn T) h = g1 ++ open_caps ++ g2 ++ u "</span>" ++ g3.
Proof.
  intros E1 E2 E3. unfold caps_set in dyn. rewrite dyn. unfold expand.
  change (expand_go (u "$1<span class=""caps"">" ++ t_uid T ++ u ":glyph:$2</span>$3") 0 h) with (group_text (u "1") h ++ u "<span class=""caps"">" ++ expand_go (t_uid T ++ u ":glyph:$2</span>$3") 0 h).
  rewrite expand_lit by (intros F; apply uid_text in F; destruct F as [_ F]; congruence).
  change (expand_go (u ":glyph:$2</span>$3") 0 h) with (u ":glyph:" ++ group_text (u "2") h ++ u "</span>" ++ group_text (u "3") h ++ []).
  change (u "1") with (dec (N.of_nat 1)). change (u "2") with (dec (N.of_nat 2)). change (u "3") with (dec (N.of_nat 3)).
  rewrite (group_cap 1 h g1 E1), (group_cap 2 h g2 E2), (group_cap 3 h g3 E3) by auto. rewrite app_nil_r. unfold open_caps. rewrite <- !app_assoc. reflexivity.
Qed.
Lemma dyn_ins x : ins open_caps (u "</span>") x (replace_tmpl (rx_re DYN_3PLUS_RE) (t_dyn T) x).
Proof.
  unfold replace_tmpl. apply scan_rel; [apply InsNil|intros; apply InsChar; assumption|].
  intros before w v s E Ev. destruct (dyn_hit before (w ++ v) s E) as (g1 & c1 & g2 & c2 & g3 & Et & U1 & U2 & A1 & A2 & C1 & C2 & C3). rewrite Ev in *.
  assert (Ew : w = g1 ++ (c1 :: g2 ++ [c2]) ++ g3). { rewrite !app_assoc in Et. apply app_inv_tail in Et. rewrite Et, <- !app_assoc. reflexivity. }
  split; [rewrite Ew; destruct g1; discriminate|]. intros y Hy. rewrite (dyn_expand _ g1 (c1 :: g2 ++ [c2]) g3) by assumption. rewrite Et, <- !app_assoc. apply ins_same. cbn [app].
  apply InsOpen; [exact U1| |].
  { destruct A1 as (a & r & Ea & Ha & Hr). exists (c1 :: a), r. split; [rewrite <- app_assoc; cbn [app] in *; rewrite Ea; reflexivity|]. split; [|exact Hr]. intros [F|F]; [|contradiction]. subst c1. vm_compute in U1. discriminate. }
  rewrite <- !app_assoc. apply ins_same. cbn [app]. apply InsClose; [exact U2|exact A2|]. apply ins_same. exact Hy.
Qed.
Lemma chunk_clean c : (t_restricted T = true -> ~ In 60 c) -> clean (glyph_chunk T c).
Proof.
  intros H. unfold glyph_chunk. cbv zeta. match goal with |- clean (multi_replace ?x _) => set (x0 := x) end.
  assert (H60 : ~ In 60 x0).
  { unfold x0. destruct (t_restricted T) eqn:E; [apply H; reflexivity|]. intros F. unfold replace_char in F. apply in_flat_map in F as (d & Hd & F). apply in_flat_map in Hd as (e & He & Hd).
    assert (K1 : ~ In 60 (u "&lt;")) by (intros G; apply (in_map (fun c => c =? 60)) in G; vm_compute in G; intuition discriminate).
    assert (K2 : ~ In 60 (u "&gt;")) by (intros G; apply (in_map (fun c => c =? 60)) in G; vm_compute in G; intuition discriminate).
    destruct (N.eqb_spec d 62) as [->|Nd]; [contradiction|]. destruct F as [F|[]]. subst d. destruct (N.eqb_spec e 60) as [->|Ne]; [contradiction|]. destruct Hd as [Hd|[]]. congruence. }
  unfold all_replacers. assert (exists b, match t_html T with HTML5 => HTML5_GLYPH_REPLACERS | XHTML => XHTML_GLYPH_REPLACERS end = glyph_replacers b) as (b & ->) by (destruct (t_html T); [exists false|exists true]; reflexivity).
  rewrite multi_app. destruct (quotes_gone x0) as (x & Q1 & Q2 & Q3). rewrite Q3. unfold multi_replace. cbn [fold_left fst snd].
  eapply (clean_ins open_caps (u "</span>")); [| | |apply dyn_ins].
  - intros y Hy. unfold open_caps. rewrite <- app_assoc. apply CleanCaps. apply clean_app; [|exact Hy]. apply clean_app; apply clean_chars; [apply forallb_forall; intros z Hz; apply uid_text, Hz|vm_compute; reflexivity].
  - intros y Hy. apply clean_app; [apply clean_chars; vm_compute; reflexivity|exact Hy].
  - apply clean_acronyms. apply forallb_forall. intros z Hz. unfold text_char. rewrite forallb_forall in Q1. rewrite (Q1 z Hz). destruct (N.eqb_spec z 60) as [->|]; [destruct (Q2 H60 Hz)|reflexivity].
Qed.
(** ** Whole texts *)
Lemma splitter_shape : exists k d, rx_re GLYPH_SPLITTER_RE = RGroup 1 (RSeq (RCls (one 60)) (RSeq (RCls k) (RSeq (RStar false (RCls d)) (RCls (one 62))))).
Proof. eexists _, _. reflexivity. Qed.
Lemma first_in (c : N) w : In c w -> exists a b, w = a ++ c :: b /\ ~ In c a.
Proof.
  induction w as [|d w IH]; intros H; [destruct H|]. destruct (N.eqb_spec d c) as [->|Hn]; [exists [], w; split; [reflexivity|intros []]|]. destruct H as [H|H]; [congruence|]. destruct (IH H) as (a & b & -> & Ha). exists (d :: a), b. split; [reflexivity|]. intros [F|F]; [congruence|contradiction].
Qed.
Lemma splitter_tag before text s : match_at (rx_re GLYPH_SPLITTER_RE) before text = Some s -> is_tag (h_text (mk_hit_of text s)).
Proof.
  intros H. pose proof H as H0. destruct splitter_shape as (k & d & Es). rewrite Es in *. apply match_at_sound in H. inversion H as [| | | | | | |n0 a0 s0 s1 H1| | | | |]; subst. cbn [m_after] in *. unfold mk_hit_of. cbn [h_text m_after].
  apply mat_seq in H1 as (s2 & X2 & H1). apply mat_seq in H1 as (s3 & X3 & H1). apply mat_seq in H1 as (s4 & X4 & X5). apply mat_cls in X2 as (x & Hx & E2), X3 as (c & Hc & E3), X5 as (y & Hy & E5). rewrite in_one in Hx, Hy. apply N.eqb_eq in Hx, Hy. subst x y.
  destruct (star_cls _ _ _ (or_intror X4)) as (w & Hw & E4). cbn [m_after] in E2.
  assert (Et : text = (60 :: c :: w ++ [62]) ++ m_after s1) by (rewrite E2, E3, E4, E5; cbn [app]; rewrite <- app_assoc; reflexivity).
  rewrite Et, cap_str_app. exists c, w. split; [reflexivity|]. intros F. destruct (first_in 62 w F) as (a & b & Ew & Ha).
  assert (exists cs bs, match_at (RGroup 1 (RSeq (RCls (one 60)) (RSeq (RCls k) (RSeq (RStar false (RCls d)) (RCls (one 62)))))) before text = Some (mk_mst bs (b ++ 62 :: m_after s1) cs)) as (cs & bs & E).
  { eexists _, _. unfold match_at. assert (Et2 : text = 60 :: c :: a ++ 62 :: b ++ 62 :: m_after s1) by (rewrite Et, Ew; cbn [app]; rewrite <- !app_assoc; cbn [app]; reflexivity). rewrite Et2. rewrite m_group, m_seq, m_cls, in_one, N.eqb_refl, m_seq, m_cls, Hc, m_seq. apply m_star_lazy.
    - rewrite Ew, forallb_app in Hw. apply andb_prop in Hw. apply Hw.
    - intros w1 x w2 E. rewrite m_cls, in_one. destruct (N.eqb_spec x 62) as [->|]; [|reflexivity]. exfalso. apply Ha. rewrite E. apply in_or_app. right. left. reflexivity.
    - rewrite m_cls, in_one, N.eqb_refl. cbn [m_before m_after m_caps]. reflexivity. }
  rewrite E in H0. injection H0 as _ H0 _. apply (f_equal (@List.length N)) in H0. rewrite app_length in H0. cbn [List.length] in H0. lia.
Qed.
Lemma glyph_pieces lits : forall hits, List.length lits = S (List.length hits) -> (forall h, In h hits -> cap_text 1 (h_caps h) = Some (h_text h)) ->
  List.concat (glyph_chunks T true (pieces lits (map (hit_groups 2) hits))) = interleave (map (glyph_chunk T) lits) (map h_text hits).
Proof.
  induction lits as [|x lits IH]; intros [|h hits] Hl Hh; cbn [List.length] in Hl; try lia; cbn [pieces map interleave].
  - destruct lits; [|cbn [List.length] in Hl; lia]. cbn. apply app_nil_r.
  - unfold hit_groups at 1, group_texts. cbn [seq map Nat.sub]. rewrite (Hh h (or_introl eq_refl)). cbn [app glyph_chunks negb List.concat]. rewrite IH; [reflexivity|lia|]. intros h' Hh'. apply Hh. right. exact Hh'.
Qed.
Lemma cut_hits r adj before text lits hits : cut r adj before text lits hits -> forall h, In h hits -> exists b t s, match_at r b t = Some s /\ h = mk_hit_of t s.
Proof. intros H. induction H as [|adj before lit rest s lits hits Hg Hm Hadj Hc IH]; intros h Hh; [destruct Hh|]. destruct Hh as [<-|Hh]; [eauto|]. apply IH. exact Hh. Qed.
Lemma glyphs_clean text s : exists lits tags outs, trim_end_matches 10 text = interleave lits tags /\ Forall is_tag tags /\
  List.length lits = S (List.length tags) /\ Forall2 (fun lit out => (t_restricted T = true -> ~ In 60 lit) -> clean out) lits outs /\ glyphs T text s = Ret (interleave outs tags) s.
Proof.
  unfold glyphs, splitM. destruct splitter_shape as (k & d & Es). assert (Wf : wf_re (rx_re GLYPH_SPLITTER_RE) = true) by reflexivity. set (t := trim_end_matches 10 text).
  destruct (splitting_total GLYPH_SPLITTER_RE t Wf) as (ps & Eps).
  { change (rx_len GLYPH_SPLITTER_RE) with 2%nat. intros n Hn. replace n with 1%nat by lia. reflexivity. }
  destruct (splitting _ _ _ Wf Eps) as (lits & hits & Hc & Et & Ep). change (rx_len GLYPH_SPLITTER_RE) with 2%nat in Ep. pose proof (cut_length _ _ _ _ _ _ Hc) as Hl. pose proof (cut_hits _ _ _ _ _ _ Hc) as Hh.
  exists lits, (map h_text hits), (map (glyph_chunk T) lits). split; [exact Et|]. split; [apply Forall_forall; intros x Hx; apply in_map_iff in Hx as (h & <- & Hi); destruct (Hh h Hi) as (b & t0 & s0 & E & ->); eapply splitter_tag; exact E|].
  rewrite map_length. split; [exact Hl|]. split.
  - clear - uid_simple dyn. induction lits as [|l lits IH]; cbn [map]; [constructor|]. constructor; [apply chunk_clean|exact IH].
  - rewrite Eps. cbn [of_opt]. rewrite bind_ret. unfold ret. rewrite Ep, glyph_pieces; [reflexivity|exact Hl|]. intros h Hi. destruct (Hh h Hi) as (b & t0 & s0 & E & ->). rewrite Es in E. eapply group_whole. exact E.
Qed.
End Chunks.
