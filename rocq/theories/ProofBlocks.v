(** The blocks of a document one by one. *)
From Verif Require Import Str Unicode Regex RegexParse RegexSnips RegexTheory RegexAuto RegexGroups Lib ModelBase ModelHtml ModelUrl
  ModelAttrs ModelInline ModelParser SpecRegex ProofRegex SpecParse ProofParse Logic ProofWalk ProofState SpecState ProofMemory ProofCache ProofLinks ProofDoc
  SpecPlain ProofPlain SpecNewlines ProofNewlines ProofParas ProofTags ProofSections.
#[local] Arguments u : simpl never.

(** ** Placeholders *)
Definition id_cls : cls := mk_cls false (map (fun c => CRange c c) id_chars).
Lemma in_singles l c : in_cls (mk_cls false (map (fun c => CRange c c) l)) c = true <-> In c l.
Proof.
  unfold in_cls. cbn [c_neg c_items]. rewrite xorb_false_l. rewrite existsb_exists. split.
  - intros (x & Hx & E). apply in_map_iff in Hx. destruct Hx as (y & <- & Hy). cbn [in_item] in E.
    apply andb_prop in E as [E1 E2]. apply N.leb_le in E1, E2. assert (c = y) as -> by lia. exact Hy.
  - intros H. exists (CRange c c). split; [apply in_map_iff; eauto|]. cbn [in_item]. rewrite N.leb_refl. reflexivity.
Qed.
Fixpoint lit_trans (q : nat) (w : str) : list trans := match w with [] => [] | c :: w' => (q, ch c, S q) :: lit_trans (S q) w' end.
Lemma suf_lit A : forall w q rest, incl (lit_trans q w) (au_trans A) -> Suf A (q + List.length w) rest -> Suf A q (w ++ rest).
Proof.
  induction w as [|c w IH]; intros q rest Hi H; cbn [List.length app] in *; [rewrite Nat.add_0_r in H; exact H|].
  eapply SufCons with (l := ch c) (q' := S q).
  - apply Hi. left. reflexivity.
  - rewrite in_ch. apply N.eqb_refl.
  - apply IH; [intros x Hx; apply Hi; right; exact Hx|]. replace (S q + List.length w)%nat with (q + S (List.length w))%nat by lia. exact H.
Qed.
Lemma suf_loop A q k : In (q, k, q) (au_trans A) -> forall w rest, (forall c, In c w -> in_cls k c = true) -> Suf A q rest -> Suf A q (w ++ rest).
Proof.
  intros Hq. induction w as [|c w IH]; intros rest Hw H; [exact H|]. cbn [app]. eapply SufCons; [exact Hq|apply Hw; left; auto|].
  apply IH; auto. intros d Hd. apply Hw. right. auto.
Qed.
(** From 400 to 420. *)
Definition token_trans : list trans :=
  (lit_trans 400 (u "textileRef:") ++ [(411, id_cls, 411); (411, ch 58, 412); (412, digit, 413); (413, digit, 413)] ++ lit_trans 413 (u ":shelve"))%nat.
Lemma in_digits n : exists c r, dec n = c :: r /\ in_cls digit c = true /\ forall x, In x r -> in_cls digit x = true.
Proof.
  destruct (dec_spec n) as (Hn & H & _). rewrite forallb_forall in H.
  assert (forall x, is_digit_ascii x = true -> in_cls digit x = true) as D.
  { intros x Hx. unfold is_digit_ascii in Hx. apply andb_prop in Hx as [H1 H2]. apply N.leb_le in H1, H2.
    assert (x = 48 \/ x = 49 \/ x = 50 \/ x = 51 \/ x = 52 \/ x = 53 \/ x = 54 \/ x = 55 \/ x = 56 \/ x = 57) as E by lia.
    repeat (destruct E as [->|E]; [reflexivity|]). subst. reflexivity. }
  destruct (dec n) as [|c r]; [congruence|]. exists c, r. split; auto. split; [apply D, H; left; auto|]. intros x Hx. apply D, H. right. auto.
Qed.
Lemma suf_token A q uid n rest : simple_uid uid -> incl token_trans (au_trans A) -> In (q, ch 116, 401%nat) (au_trans A) ->
  Suf A 420 rest -> Suf A q ((uid ++ dec n ++ u ":shelve") ++ rest).
Proof.
  intros (id & -> & Hid) Hi Hq Hr. rewrite <- !app_assoc.
  assert (forall x, In x (lit_trans 401 (u "extileRef:")) -> In x (au_trans A)) as H1 by (intros x Hx; apply Hi, in_or_app; left; right; exact Hx).
  assert (forall x, In x (lit_trans 413 (u ":shelve")) -> In x (au_trans A)) as H2 by (intros x Hx; apply Hi, in_or_app; right; apply in_or_app; right; exact Hx).
  assert (forall x, In x [(411, id_cls, 411); (411, ch 58, 412); (412, digit, 413); (413, digit, 413)]%nat -> In x (au_trans A)) as H3
    by (intros x Hx; apply Hi, in_or_app; right; apply in_or_app; left; exact Hx).
  change (u "textileRef:") with (116 :: u "extileRef:"). cbn [app]. eapply SufCons; [exact Hq|reflexivity|].
  apply suf_lit; [exact H1|]. change (401 + List.length (u "extileRef:"))%nat with 411%nat.
  apply (suf_loop A 411 id_cls); [apply H3; cbn; tauto|intros c Hc; apply in_singles, Hid, Hc|].
  change (u ":") with [58]. cbn [app]. eapply SufCons with (l := ch 58) (q' := 412%nat); [apply H3; cbn; tauto|reflexivity|].
  destruct (in_digits n) as (c & r & -> & Hc & Hr'). cbn [app]. eapply SufCons with (l := digit) (q' := 413%nat); [apply H3; cbn; tauto|exact Hc|].
  apply (suf_loop A 413 digit); [apply H3; cbn; tauto|exact Hr'|]. apply suf_lit; [exact H2|]. exact Hr.
Qed.
Definition token : auto := mk_auto (token_trans ++ [(420, newline, 421); (421, newline, 422)])%nat 400%nat [420; 422]%nat.
Definition token1 : auto := mk_auto token_trans 400%nat [420%nat].
Lemma token_inline : forallb (fun r => never token (rx_re r)) (INLINE_RX ++ TAG_PATTERNS) = true.
Proof. vm_compute. reflexivity. Qed.
Lemma token_glyph : forallb (fun r => never token1 (rx_re r)) GLYPH_RX = true.
Proof. vm_compute. reflexivity. Qed.
Definition linkStart : re := lit_re (u "linkStartMarke") (RCls (ch 114)).
Lemma token_small : forallb (never token1) [RCls (ch 60); RCls (ch 62); end_newline; linkStart] = true.
Proof. vm_compute. reflexivity. Qed.
Lemma token_accepts uid n : simple_uid uid -> accepts token (uid ++ dec n ++ u ":shelve") /\ accepts token ((uid ++ dec n ++ u ":shelve") ++ nl ++ nl)
  /\ accepts token1 (uid ++ dec n ++ u ":shelve").
Proof.
  intros H. unfold accepts. repeat split.
  - rewrite <- (app_nil_r (uid ++ _)). apply suf_token; auto; [intros x Hx; apply in_or_app; left; exact Hx|left; reflexivity|]. constructor. cbn; tauto.
  - apply suf_token; auto; [intros x Hx; apply in_or_app; left; exact Hx|left; reflexivity|].
    eapply SufCons with (l := newline) (q' := 421%nat); [apply in_or_app; right; cbn; tauto|reflexivity|].
    eapply SufCons with (l := newline) (q' := 422%nat); [apply in_or_app; right; cbn; tauto|reflexivity|]. constructor. cbn; tauto.
  - rewrite <- (app_nil_r (uid ++ _)). apply suf_token; auto; [intros x Hx; exact Hx|left; reflexivity|]. constructor. cbn; tauto.
Qed.
Lemma contains_suffix p q t : contains q t = false -> contains (p ++ q) t = false.
Proof.
  intros H. destruct (contains (p ++ q) t) eqn:E; auto. apply contains_split in E. destruct E as (a & b & ->).
  rewrite <- app_assoc in H. rewrite app_assoc in H. rewrite contains_mid in H. discriminate.
Qed.
Lemma contains_len p t : (List.length t < List.length p)%nat -> contains p t = false.
Proof.
  intros H. destruct (contains p t) eqn:E; auto. apply contains_split in E. destruct E as (a & b & ->). rewrite !app_length in H. lia.
Qed.

(** ** A page *)
Definition to6 : cls := mk_cls false (map (fun c => CRange c c) (u "123456")).
Definition ends : list nat := [314; 420; 335; 352]%nat.
(** Preformatted text, from 300 to 420, 335 and 352. *)
Definition fence_trans : list trans :=
  (token_trans
   ++ [(300, ch 60, 301); (301, ch 112, 302); (300, ch 116, 401); (302, ch 114, 360); (360, ch 101, 361); (361, ch 62, 362); (362, ch 116, 401);
       (362, ch 60, 363); (368, ch 116, 401); (420, ch 60, 330); (420, ch 60, 340)]
   ++ lit_trans 363 (u "code>") ++ lit_trans 330 (u "/pre>") ++ lit_trans 340 (u "/code></pre>"))%nat.
Definition fence : auto := mk_auto fence_trans 300%nat [420; 335; 352]%nat.
Definition page_trans : list trans :=
  (au_trans paragraph ++ fence_trans
   ++ flat_map (fun tr => if in_cls (snd (fst tr)) 10 then [(fst (fst tr), ch 60, 320)] else []) (au_trans paragraph)
   ++ [(320, ch 98, 321); (321, ch 114, 322); (322, ch 62, 1); (322, ch 32, 323); (323, ch 47, 324); (324, ch 62, 1)]
   ++ map (fun q => (q, ch 60, 310)) (au_final paragraph)
   ++ [(302, ch 62, 0); (301, ch 104, 303); (303, to6, 304); (304, ch 62, 0);
       (310, ch 47, 311); (311, ch 112, 313); (311, ch 104, 312); (312, to6, 313); (313, ch 62, 314)]
   ++ map (fun q => (q, ch 10, 315)) ends ++ [(315, ch 10, 300)])%nat.
Definition page : auto := mk_auto page_trans 300%nat ends.
Lemma page_notelist : never page (rx_re TEXT_NOTELIST_RE) = true.
Proof. vm_compute. reflexivity. Qed.
Lemma newline_to_1 q k q' : In (q, k, q') (au_trans paragraph) -> in_cls k 10 = true -> q' = 1%nat.
Proof.
  assert (forallb (fun tr => implb (in_cls (snd (fst tr)) 10) (Nat.eqb (snd tr) 1)) (au_trans paragraph) = true) as H by (vm_compute; reflexivity).
  intros Hi Hk. rewrite forallb_forall in H. specialize (H _ Hi). cbn [fst snd] in H. rewrite Hk in H. apply Nat.eqb_eq in H. exact H.
Qed.

(** ** Closing tags *)
Definition closing_re : re := RSeq (RCls (one 60)) (RSeq (RCls (one 47)) (RSeq pbr_names (RCls (one 62)))).
Lemma fence_closing : never fence closing_re = true.
Proof. vm_compute. reflexivity. Qed.
Lemma fence_br : never fence (rx_re BR_TAG_RE) = true.
Proof. vm_compute. reflexivity. Qed.
Lemma mat_names s s' : Mat pbr_names s s' -> m_caps s' = m_caps s /\ exists w, In w PBR_NAMES /\ m_after s = w ++ m_after s'.
Proof.
  intros H. unfold pbr_names in H. inversion H as [| | |a b s0 s1 H1|a b s0 s1 H1| | | | | | | |]; subst.
  - apply mat_cls in H1 as (x & r & E & Hx & ->). rewrite in_one in Hx. apply N.eqb_eq in Hx. subst. split; [reflexivity|]. exists (u "p"). split; [left; auto|exact E].
  - apply mat_seq in H1 as (s1 & H1 & H2). apply mat_cls in H1 as (x & r & E & Hx & ->). apply mat_cls in H2 as (y & r' & E' & Hy & ->).
    rewrite in_one in Hx. apply N.eqb_eq in Hx. subst. split; [reflexivity|]. cbn [m_after step] in *. subst. exists [104; y]. split; [|exact E].
    unfold in_cls in Hy. cbn [c_neg c_items existsb in_item] in Hy. rewrite orb_false_r, xorb_false_l, andb_true_iff, !N.leb_le in Hy.
    assert (y = 49 \/ y = 50 \/ y = 51 \/ y = 52 \/ y = 53 \/ y = 54) as D by lia.
    repeat (destruct D as [->|D]; [cbn; tauto|]). subst. cbn; tauto.
Qed.
Lemma eat_lit_after w : forall s s', eat_lit w s = Some s' -> m_after s = w ++ m_after s'.
Proof.
  induction w as [|c w IH]; intros s s' H; cbn [eat_lit] in H; [inversion H; reflexivity|].
  destruct (m_after s) as [|x r] eqn:E; [discriminate|]. destruct (N.eqb_spec c x) as [->|]; [|discriminate]. apply IH in H. cbn [step m_after] in H. rewrite H. reflexivity.
Qed.
Lemma pbr_needs_closing text : no_match closing_re text -> no_match (rx_re PBR_TAG_RE) text.
Proof.
  intros Hn a b E. destruct (match_at (rx_re PBR_TAG_RE) (rev a) b) as [s|] eqn:M; auto. exfalso. apply match_at_sound in M. rewrite pbr_shape in M.
  apply mat_seq in M as (s1 & M1 & M). apply mat_cls in M1 as (x1 & r1 & E1 & _ & ->). cbn [m_after] in E1. subst b.
  apply mat_seq in M as (s2 & M2 & M). apply mat_group in M2 as (s2' & M2 & ->). apply mat_names in M2 as (C2 & w & Hw & E2). cbn [m_after m_caps step] in *.
  apply mat_seq in M as (s3 & M3 & M). apply mat_group in M3 as (s3' & M3 & ->). apply mat_star_cls in M3 as (w3 & V3 & _ & C3). cbn [m_after m_caps] in *.
  apply mat_seq in M as (s4 & M4 & M). apply mat_cls in M4 as (x4 & r4 & E4 & _ & ->). cbn [m_after m_caps step] in *.
  apply mat_seq in M as (s5 & M5 & M). apply mat_group in M5 as (s5' & M5 & ->). apply mat_star_cls in M5 as (w5 & V5 & _ & C5). cbn [m_after m_caps step] in *.
  apply mat_group in M as (s6 & M & _). unfold pbr_close in M.
  apply mat_seq in M as (s7 & M7 & M). apply mat_cls in M7 as (x7 & r7 & E7 & H7 & ->). cbn [m_after m_caps step] in *.
  apply mat_seq in M as (s8 & M8 & M). apply mat_cls in M8 as (x8 & r8 & E8 & H8 & ->). cbn [m_after m_caps step] in *.
  apply mat_seq in M as (s9 & M9 & M). inversion M9; subst. cbn [m_caps find_cap Nat.eqb] in *.
  apply mat_cls in M as (x10 & r10 & E10 & H10 & ->).
  rewrite in_one in H7, H8, H10. apply N.eqb_eq in H7, H8, H10. subst.
  cbn [m_caps step find_cap Nat.eqb] in H0. rewrite C5, C3 in H0. cbn [find_cap Nat.eqb] in H0. inversion H0; subst v. rewrite cap_str_app in H1.
  apply eat_lit_after in H1. cbn [m_after step] in H1. rewrite E10 in H1. subst r8.
  destruct V3 as [V3 _], V5 as [V5 _]. cbn [m_after step] in V3, V5. rewrite E7 in V5. rewrite E4, V5 in V3.
  assert (a ++ x1 :: w ++ m_after s2' = (a ++ x1 :: w ++ w3 ++ x4 :: w5) ++ (60 :: 47 :: w ++ 62 :: r10)) as Et.
  { rewrite V3. rewrite <- !app_assoc. cbn [app]. rewrite <- !app_assoc. reflexivity. }
  specialize (Hn _ _ Et). revert Hn. generalize (rev (a ++ x1 :: w ++ w3 ++ x4 :: w5)). intros before Hn.
  clear - Hw Hn. unfold match_at, closing_re in Hn. rewrite m_seq, m_cls, in_one in Hn. cbn [N.eqb Pos.eqb] in Hn. rewrite m_seq, m_cls, in_one in Hn. cbn [N.eqb Pos.eqb] in Hn.
  cbn [In PBR_NAMES] in Hw. repeat (destruct Hw as [<-|Hw]; [discriminate Hn|]). destruct Hw.
Qed.

(** ** The output for a block, with a placeholder for its content *)
Section Blocks.
Variables (W : world) (T : textile).
Hypothesis uid_simple : simple_uid (t_uid T).
Notation tok n := (fragment_token T n).
Notation br := (br_tag T).

Definition staged (n : N) (b : plain_block) : str :=
  match b with
  | Para t => element (u "p") (breaks br t)
  | Heading k t => element (heading_tag k) (breaks br t)
  | Code _ => element (u "pre") (element (u "code") (tok (n + 1)))
  | Pre _ => element (u "pre") (tok (n + 1))
  | Raw _ => tok (n + 1)
  end.
Lemma tok_suf A q n rest : incl token_trans (au_trans A) -> In (q, ch 116, 401%nat) (au_trans A) -> Suf A 420 rest -> Suf A q (tok n ++ rest).
Proof. apply suf_token. exact uid_simple. Qed.
Ltac here H := apply H; unfold fence_trans; apply in_or_app; right; apply in_or_app; left; cbn; tauto.
Lemma fence_suf A n b rest : incl fence_trans (au_trans A) -> (forall f, In f [420; 335; 352]%nat -> Suf A f rest) ->
  match b with Para _ | Heading _ _ => False | _ => True end -> Suf A 300 (staged n b ++ rest).
Proof.
  intros H Hr Hb. assert (incl token_trans (au_trans A)) as Ht by (intros x Hx; apply H, in_or_app; left; exact Hx).
  assert (incl (lit_trans 363 (u "code>")) (au_trans A)) as L1 by (intros x Hx; apply H; unfold fence_trans; rewrite !in_app_iff; tauto).
  assert (incl (lit_trans 330 (u "/pre>")) (au_trans A)) as L2 by (intros x Hx; apply H; unfold fence_trans; rewrite !in_app_iff; tauto).
  assert (incl (lit_trans 340 (u "/code></pre>")) (au_trans A)) as L3 by (intros x Hx; apply H; unfold fence_trans; rewrite !in_app_iff; tauto).
  destruct b as [t|k t|t|t|t]; try contradiction; unfold staged, element.
  - replace ((u "<" ++ u "pre" ++ u ">" ++ (u "<" ++ u "code" ++ u ">" ++ tok (n + 1) ++ u "</" ++ u "code" ++ u ">") ++ u "</" ++ u "pre" ++ u ">") ++ rest)
      with (60 :: 112 :: 114 :: 101 :: 62 :: 60 :: u "code>" ++ tok (n + 1) ++ 60 :: u "/code></pre>" ++ rest) by (rewrite <- !app_assoc; reflexivity).
    eapply SufCons with (q' := 301%nat) (l := ch 60); [here H|reflexivity|]. eapply SufCons with (q' := 302%nat) (l := ch 112); [here H|reflexivity|].
    eapply SufCons with (q' := 360%nat) (l := ch 114); [here H|reflexivity|]. eapply SufCons with (q' := 361%nat) (l := ch 101); [here H|reflexivity|].
    eapply SufCons with (q' := 362%nat) (l := ch 62); [here H|reflexivity|]. eapply SufCons with (q' := 363%nat) (l := ch 60); [here H|reflexivity|].
    apply suf_lit; [exact L1|]. change (363 + List.length (u "code>"))%nat with 368%nat. apply tok_suf; [exact Ht|here H|].
    eapply SufCons with (q' := 340%nat) (l := ch 60); [here H|reflexivity|]. apply suf_lit; [exact L3|]. apply Hr. cbn; tauto.
  - replace ((u "<" ++ u "pre" ++ u ">" ++ tok (n + 1) ++ u "</" ++ u "pre" ++ u ">") ++ rest)
      with (60 :: 112 :: 114 :: 101 :: 62 :: tok (n + 1) ++ 60 :: u "/pre>" ++ rest) by (rewrite <- !app_assoc; reflexivity).
    eapply SufCons with (q' := 301%nat) (l := ch 60); [here H|reflexivity|]. eapply SufCons with (q' := 302%nat) (l := ch 112); [here H|reflexivity|].
    eapply SufCons with (q' := 360%nat) (l := ch 114); [here H|reflexivity|]. eapply SufCons with (q' := 361%nat) (l := ch 101); [here H|reflexivity|].
    eapply SufCons with (q' := 362%nat) (l := ch 62); [here H|reflexivity|]. apply tok_suf; [exact Ht|here H|].
    eapply SufCons with (q' := 330%nat) (l := ch 60); [here H|reflexivity|]. apply suf_lit; [exact L2|]. apply Hr. cbn; tauto.
  - apply tok_suf; [exact Ht|here H|]. apply Hr. cbn; tauto.
Qed.

Lemma in_page x : In x (au_trans paragraph) \/ In x fence_trans -> In x page_trans.
Proof. unfold page_trans. rewrite !in_app_iff. tauto. Qed.
Ltac there := unfold page_trans; apply in_or_app; right; apply in_or_app; right; apply in_or_app; right; first
  [apply in_or_app; left; cbn; tauto | apply in_or_app; right; apply in_or_app; right; apply in_or_app; left; cbn; tauto].
Lemma br_suf rest : Suf page 1 rest -> Suf page 320 (match br with [] => [] | _ :: w => w end ++ rest).
Proof.
  intros H. unfold br_tag. destruct (t_html T); [change (u "<br />") with [60; 98; 114; 32; 47; 62]|change (u "<br>") with [60; 98; 114; 62]]; cbn [app].
  all: eapply SufCons with (q' := 321%nat) (l := ch 98); [there|reflexivity|]; eapply SufCons with (q' := 322%nat) (l := ch 114); [there|reflexivity|].
  - eapply SufCons with (q' := 323%nat) (l := ch 32); [there|reflexivity|]; eapply SufCons with (q' := 324%nat) (l := ch 47); [there|reflexivity|].
    eapply SufCons with (q' := 1%nat) (l := ch 62); [there|reflexivity|]. exact H.
  - eapply SufCons with (q' := 1%nat) (l := ch 62); [there|reflexivity|]. exact H.
Qed.
Lemma br_is : is_br br.
Proof. unfold is_br, br_tag. destruct (t_html T); auto. Qed.
Lemma breaks_suf q t : Suf paragraph q t -> forall rest, (forall f, In f (au_final paragraph) -> Suf page f rest) -> Suf page q (breaks br t ++ rest).
Proof.
  intros H. induction H as [q Hf|q k q' c t Ht Hc Hs IH]; intros rest Hr; [apply Hr; exact Hf|].
  unfold breaks. cbn [flat_map]. fold (breaks br t). destruct (N.eqb_spec c 10) as [->|Hn].
  - pose proof (newline_to_1 _ _ _ Ht Hc) as ->. pose proof (br_suf (breaks br t ++ rest) (IH rest Hr)) as Hb. rewrite <- app_assoc.
    destruct br as [|x w] eqn:Eb; [exfalso; pose proof br_is as F; rewrite Eb in F; destruct F; discriminate|].
    assert (x = 60) as -> by (pose proof br_is as F; rewrite Eb in F; destruct F as [F|F]; inversion F; reflexivity).
    cbn [app]. eapply SufCons with (q' := 320%nat) (l := ch 60); [|reflexivity|exact Hb].
    unfold page_trans. apply in_or_app; right; apply in_or_app; right; apply in_or_app; left. apply in_flat_map. eexists. split; [exact Ht|].
    cbn [fst snd]. rewrite Hc. left. reflexivity.
  - cbn [app]. eapply SufCons; [apply in_page; left; exact Ht|exact Hc|]. apply IH. exact Hr.
Qed.
Lemma heading_digit k : 1 <= k <= 6 -> in_cls to6 (48 + k) = true.
Proof.
  intros H. assert (k = 1 \/ k = 2 \/ k = 3 \/ k = 4 \/ k = 5 \/ k = 6) as D by lia. repeat (destruct D as [->|D]; [reflexivity|]). subst. reflexivity.
Qed.
Lemma heading_name k : 1 <= k <= 6 -> In (heading_tag k) PBR_NAMES /\ In (heading_tag k) SIGNATURES.
Proof.
  intros H. assert (k = 1 \/ k = 2 \/ k = 3 \/ k = 4 \/ k = 5 \/ k = 6) as D by lia.
  repeat (destruct D as [->|D]; [split; cbn [In PBR_NAMES SIGNATURES]; change (heading_tag _) with (heading_tag 1) || idtac; vm_compute; tauto|]). subst. split; vm_compute; tauto.
Qed.
Lemma page_suf n b rest : plain b -> (forall f, In f ends -> Suf page f rest) -> Suf page 300 (staged n b ++ rest).
Proof.
  intros Hb Hr. destruct b as [t|k t|t|t|t].
  3-5: apply fence_suf; [intros x Hx; apply in_page; right; exact Hx|intros f Hf; apply Hr; cbn in *; tauto|exact I].
  - cbn [staged]. unfold element. change (u "<" ++ u "p" ++ u ">" ++ breaks br t ++ u "</" ++ u "p" ++ u ">") with (60 :: 112 :: 62 :: breaks br t ++ [60; 47; 112; 62]).
    cbn [app]. rewrite <- app_assoc. cbn [app].
    eapply SufCons with (q' := 301%nat) (l := ch 60); [apply in_page; right; unfold fence_trans; apply in_or_app; right; apply in_or_app; left; cbn; tauto|reflexivity|].
    eapply SufCons with (q' := 302%nat) (l := ch 112); [apply in_page; right; unfold fence_trans; apply in_or_app; right; apply in_or_app; left; cbn; tauto|reflexivity|].
    eapply SufCons with (q' := 0%nat) (l := ch 62); [there|reflexivity|]. apply breaks_suf; [exact Hb|]. intros f Hf.
    eapply SufCons with (q' := 310%nat) (l := ch 60); [cbn [page au_trans]; unfold page_trans; rewrite !in_app_iff; do 4 right; left; apply in_map_iff; eauto|reflexivity|].
    eapply SufCons with (q' := 311%nat) (l := ch 47); [there|reflexivity|]. eapply SufCons with (q' := 313%nat) (l := ch 112); [there|reflexivity|].
    eapply SufCons with (q' := 314%nat) (l := ch 62); [there|reflexivity|]. apply Hr. cbn; tauto.
  - cbn [staged]. unfold element, heading_tag. change (u "<" ++ [104; 48 + k] ++ u ">" ++ breaks br t ++ u "</" ++ [104; 48 + k] ++ u ">") with (60 :: 104 :: 48 + k :: 62 :: breaks br t ++ [60; 47; 104; 48 + k; 62]).
    cbn [app]. rewrite <- app_assoc. cbn [app]. destruct Hb as [Hk Hb].
    eapply SufCons with (q' := 301%nat) (l := ch 60); [apply in_page; right; unfold fence_trans; apply in_or_app; right; apply in_or_app; left; cbn; tauto|reflexivity|].
    eapply SufCons with (q' := 303%nat) (l := ch 104); [there|reflexivity|]. eapply SufCons with (q' := 304%nat) (l := to6); [there|apply heading_digit; exact Hk|].
    eapply SufCons with (q' := 0%nat) (l := ch 62); [there|reflexivity|]. apply breaks_suf; [exact Hb|]. intros f Hf.
    eapply SufCons with (q' := 310%nat) (l := ch 60); [cbn [page au_trans]; unfold page_trans; rewrite !in_app_iff; do 4 right; left; apply in_map_iff; eauto|reflexivity|].
    eapply SufCons with (q' := 311%nat) (l := ch 47); [there|reflexivity|]. eapply SufCons with (q' := 312%nat) (l := ch 104); [there|reflexivity|].
    eapply SufCons with (q' := 313%nat) (l := to6); [there|apply heading_digit; exact Hk|].
    eapply SufCons with (q' := 314%nat) (l := ch 62); [there|reflexivity|]. apply Hr. cbn; tauto.
Qed.
(** The numbers of a list of blocks. *)
Definition needs (b : plain_block) : N := match b with Para _ | Heading _ _ => 0 | _ => 1 end.
Fixpoint stages (n : N) (bs : list plain_block) : list str :=
  match bs with [] => [] | b :: rest => staged n b :: stages (n + needs b) rest end.
Lemma stages_page bs : forall n, bs <> [] -> (forall b, In b bs -> plain b) -> accepts page (sections (stages n bs)).
Proof.
  unfold accepts. change (au_start page) with 300%nat. induction bs as [|b bs IH]; intros n Hn H; [congruence|]. cbn [stages]. destruct bs as [|b' bs].
  - cbn [stages sections]. rewrite <- (app_nil_r (staged n b)). apply page_suf; [apply H; left; auto|]. intros f Hf. constructor. exact Hf.
  - rewrite sections_cons by (cbn [stages]; discriminate). apply page_suf; [apply H; left; auto|]. intros f Hf.
    eapply SufCons with (q' := 315%nat) (l := ch 10); [|reflexivity|].
    { cbn [page au_trans]. unfold page_trans. rewrite !in_app_iff. do 6 right. left. apply in_map_iff. exists f. auto. }
    eapply SufCons with (q' := 300%nat) (l := ch 10); [|reflexivity|apply IH; [discriminate|intros; apply H; right; auto]].
    cbn [page au_trans]. unfold page_trans. rewrite !in_app_iff. do 7 right. left. reflexivity.
Qed.
End Blocks.
