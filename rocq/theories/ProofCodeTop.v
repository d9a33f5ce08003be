(** Documents of paragraphs with inline code, from the source to the HTML. *)
From Verif Require Import Str Unicode Regex RegexParse RegexSnips RegexTheory RegexAuto RegexGroups Lib ModelBase ModelHtml ModelUrl
  ModelAttrs ModelInline ModelParser SpecRegex ProofRegex ProofCharref SpecParse ProofParse Logic ProofWalk ProofState SpecState ProofMemory ProofCache ProofLinks ProofDoc
  SpecPlain ProofPlain SpecNewlines ProofNewlines ProofParas ProofTags ProofSections ProofBlocks ProofStateEx SpecDoc ProofDocument SpecText ProofText ProofWeave ProofSpan ProofSpanRe ProofSpanText SpecSpans ProofSpanDoc ProofSpanPage
  SpecSigned ProofSigned ProofSignedDoc ProofSignedPage ProofSignedEnd ProofSignedTop ProofPages ProofSpecial SpecCode ProofCode ProofCodeDoc ProofCodePage.
#[local] Arguments u : simpl never.

(** ** Escaping *)
Lemma encode_other c : encode_char false false c = [c] \/ exists w, encode_char false false c = w /\ w <> [] /\ forall x, In x w -> In x (u "&amp;lt;gt;").
Proof.
  unfold encode_char. cbn [andb]. destruct (c =? 38); [right; eexists; split; [reflexivity|]; split; [discriminate|vm_compute; tauto]|].
  destruct (c =? 60); [right; eexists; split; [reflexivity|]; split; [discriminate|vm_compute; tauto]|].
  destruct (c =? 62); [right; eexists; split; [reflexivity|]; split; [discriminate|vm_compute; tauto]|]. left. reflexivity.
Qed.
Lemma esc_absent x t : ~ In x (u "&amp;lt;gt;") -> ~ In x t -> ~ In x (esc t).
Proof.
  intros H. induction t as [|c t IH]; intros Ht F; [destruct F|]. rewrite esc_cons in F. apply in_app_or in F as [F|F]; [|apply IH; auto; intros G; apply Ht; right; exact G].
  destruct (encode_other c) as [E|(w & E & _ & Hw)]; rewrite E in F; [destruct F as [->|[]]; apply Ht; left; reflexivity|]. auto.
Qed.
Lemma esc_marks t : contains (u "==") (esc t) = contains (u "==") t /\ starts_with [61] (esc t) = starts_with [61] t.
Proof.
  induction t as [|c t [IH1 IH2]]; [split; reflexivity|]. rewrite esc_cons. destruct (encode_other c) as [E|(w & E & Hn & Hw)].
  - rewrite E. cbn [app]. split; [|reflexivity]. change (u "==") with [61; 61] in *. cbn [contains]. rewrite IH1. f_equal. cbn [starts_with]. destruct (61 =? c); [|reflexivity]. cbn [andb]. exact IH2.
  - rewrite E. assert (c <> 61) as Hc by (intros ->; vm_compute in E; subst w; specialize (Hw 61 (or_introl eq_refl)); vm_compute in Hw; intuition discriminate).
    assert (forall z, contains (u "==") (w ++ z) = contains (u "==") z) as Q.
    { assert (~ In 61 w) as Hw61 by (intros F; apply Hw in F; vm_compute in F; intuition discriminate). clear - Hw61. intros z. induction w as [|d w IH]; [reflexivity|]. cbn [app contains]. change (u "==") with [61; 61] in *. cbn [starts_with].
      destruct (N.eqb_spec 61 d) as [<-|]; [destruct Hw61; left; reflexivity|]. cbn [andb orb]. apply IH. intros F. apply Hw61. right. exact F. }
    split.
    + rewrite Q, IH1. change (u "==") with [61; 61]. cbn [contains starts_with]. destruct (N.eqb_spec 61 c); [congruence|]. reflexivity.
    + destruct w as [|d w]; [congruence|]. cbn [app starts_with]. destruct (N.eqb_spec 61 c); [congruence|]. destruct (N.eqb_spec 61 d) as [<-|]; [|reflexivity]. specialize (Hw 61 (or_introl eq_refl)). vm_compute in Hw. intuition discriminate.
Qed.
Lemma esc_ne t : t <> [] -> esc t <> [].
Proof. destruct t as [|c t]; [congruence|]. intros _. rewrite esc_cons. destruct (encode_other c) as [->|(w & -> & Hn & _)]; [discriminate|]. destruct w; [congruence|discriminate]. Qed.
Lemma within_contains w t : ~ within_text w t -> contains w t = false.
Proof. intros H. destruct (contains w t) eqn:E; auto. destruct H. apply contains_split in E. exact E. Qed.
Lemma clear_eq x : contains (u "==") (x ++ u "=") = false -> clear (u "==") x.
Proof.
  intros H. apply clear_fine. split.
  - destruct (contains (u "==") x) eqn:E; auto. apply contains_split in E as (a & b & ->). rewrite <- !app_assoc in H. rewrite contains_mid in H. discriminate.
  - destruct x as [|d x] using rev_ind; [left; reflexivity|]. right. exists x, d. split; [reflexivity|]. intros ->. assert (contains (u "==") (x ++ u "==" ++ []) = true) as F by apply contains_mid. rewrite <- app_assoc in H. change ([61] ++ u "=") with (u "==" ++ []) in H. congruence.
Qed.
Section Top.
Variables (W : world) (T : textile).
Hypothesis uid_simple : simple_uid (t_uid T).
Hypothesis full : t_lite T = false.
Notation fb := (final_br T).
Lemma seen_cases c (P : str -> Prop) : P c -> P (esc c) -> P (seen_text T c).
Proof. intros H1 H2. unfold seen_text. destruct (t_restricted T); [rewrite <- esc_entities|]; assumption. Qed.
Lemma seen_fits f : fragment_ok T f -> fits T (seen_fragment T f).
Proof.
  intros H. assert (forall x, ~ In x (u "&amp;lt;gt;") -> forall c, ~ In x c -> ~ In x (seen_text T c)) as Q by (intros x Hx c Hc; apply (seen_cases c (fun y => ~ In x y)); auto; apply esc_absent; auto).
  destruct f as [c|c]; cbn [fragment_ok seen_fragment] in *; unfold fits; cbn [inside_of].
  - destruct H as (H1 & H2 & H3 & H4 & H5 & H6 & H7 & H8). split; [apply (seen_cases c (fun y => y <> [])); auto using esc_ne|].
    split; [apply Q; auto; vm_compute; intuition discriminate|]. split; [apply Q; auto; vm_compute; intuition discriminate|]. split; [apply token_free_iff; auto|]. split; [apply within_contains; auto|].
    split; [apply Q; auto; vm_compute; intuition discriminate|]. split; [|apply within_contains; auto]. apply within_contains in H6. apply (seen_cases c (fun y => contains (u "==") y = false)); auto. destruct (esc_marks c) as [-> _]. exact H6.
  - destruct H as (H1 & H2 & H3 & H4 & H5 & H6 & H7). split; [apply (seen_cases c (fun y => y <> [])); auto using esc_ne|].
    split; [apply Q; auto; vm_compute; intuition discriminate|]. split; [apply Q; auto; vm_compute; intuition discriminate|]. split; [apply token_free_iff; auto|]. split; [apply within_contains; auto|].
    split; [|exact H7]. apply clear_eq. apply within_contains in H5. apply (seen_cases c (fun y => contains (u "==") (y ++ u "=") = false)); auto. change (esc c ++ u "=") with (esc c ++ esc (u "=")). rewrite <- esc_app. destruct (esc_marks (c ++ u "=")) as [-> _]. exact H5.
Qed.
Definition seen_frags (l : list (fragment * str)) : list (fragment * str) := map (fun y => (seen_fragment T (fst y), snd y)) l.
Lemma seen_follow l : fragments_follow T l -> follow T (seen_frags l).
Proof.
  induction l as [|[f t] l IH]; intros H; [exact I|]. destruct l as [|y l].
  - destruct H as [H1 H2]. split; [apply seen_fits; exact H1|exact H2].
  - destruct H as (H1 & H2 & H3). split; [apply seen_fits; exact H1|]. split; [exact H2|]. apply IH. exact H3.
Qed.
Lemma seen_shape p : coded_ok T p -> shape T (fst p) (seen_frags (snd p)).
Proof.
  destruct p as [a l]. unfold coded_ok. cbn [fst snd]. destruct l as [|y l]; intros H; [left; split; [reflexivity|exact H]|]. right. destruct H as [H1 H2]. split; [discriminate|]. split; [exact H1|]. apply (seen_follow (y :: l)). exact H2.
Qed.
Definition seen_para (p : coded) : para := para_of T (fst p) (seen_frags (snd p)).
Lemma follow_texts l : fragments_follow T l -> forall f t, In (f, t) l -> accepts between_code t \/ accepts after_code t.
Proof.
  induction l as [|[f t] l IH]; intros H g x Hi; [destruct Hi|]. destruct Hi as [E|Hi].
  - inversion E; subst. destruct l as [|y l]; [right; apply H|left; apply H].
  - destruct l as [|y l]; [destruct Hi|]. eapply IH; [apply H|exact Hi].
Qed.
Lemma esc_coded p : coded_ok T p -> t_restricted T = true -> esc (coded_text p) = p_source (seen_para p).
Proof.
  intros H Hr. unfold coded_text, seen_para. cbn [para_of p_source]. pose proof (seen_shape p H) as Hs. apply shape_start in Hs as (_ & H60 & _ & _ & _ & H38 & H62 & _). rewrite esc_app, esc_id by auto. f_equal.
  assert (forall f t, In (f, t) (snd p) -> esc t = t) as Q.
  { intros f t Hi. destruct p as [a [|y l]]; [destruct Hi|]. destruct H as [_ H]. cbn [snd] in *. destruct (follow_texts (y :: l) H f t Hi) as [F|F]; [destruct (around_pieces between_code t) as (N1 & _ & _ & _ & N2 & N3)|destruct (around_pieces after_code t) as (N1 & _ & _ & _ & N2 & N3)]; auto; apply esc_id; auto. }
  clear H H60 H38 H62. unfold frag_text, seen_frags. induction (snd p) as [|[f t] l IH]; [reflexivity|]. cbn [flat_map map fst snd]. rewrite !esc_app, IH by (intros; eapply Q; right; eauto). rewrite (Q f t) by (left; reflexivity). f_equal. f_equal.
  destruct f; cbn [fragment_text seen_fragment]; rewrite !esc_app, seen_esc by auto; reflexivity.
Qed.
Lemma plain_coded p : t_restricted T = false -> coded_text p = p_source (seen_para p).
Proof.
  intros Hr. unfold coded_text, seen_para. cbn [para_of p_source]. f_equal. unfold frag_text, seen_frags. induction (snd p) as [|[f t] l IH]; [reflexivity|]. cbn [flat_map map fst snd]. rewrite IH. f_equal. f_equal.
  destruct f; cbn [fragment_text seen_fragment]; unfold seen_text; rewrite Hr; reflexivity.
Qed.
Lemma coded_body p : coded_html T fb p = element (u "p") (p_body (seen_para p) fb).
Proof.
  unfold coded_html, seen_para. cbn [para_of p_body]. do 2 f_equal. unfold body_of, seen_frags. induction (snd p) as [|[f t] l IH]; [reflexivity|]. cbn [flat_map map fst snd]. rewrite IH. f_equal. f_equal.
  destruct f; cbn [fragment_html seen_fragment shelf_of]; [|reflexivity]. unfold code_of. fold (esc (seen_text T c)). rewrite esc_entities. reflexivity.
Qed.
Lemma code_documents fuel ps : (1 < fuel)%nat -> t_sanitize T = None -> t_block_tags T = true -> (forall p, In p ps -> coded_ok T p) ->
  exists s, parse W T fuel [] (sections (map coded_text ps)) = Ret (sections (map (coded_html T fb) ps)) s.
Proof.
  intros Hf Hs Ht H. destruct ps as [|p0 ps0]; [eexists; reflexivity|]. set (ps := p0 :: ps0) in *.
  assert (forall p, In p (map seen_para ps) -> sound W T shelved_code p) as Hp.
  { intros p Hp. apply in_map_iff in Hp as (q & <- & Hq). apply para_sound; auto. apply seen_shape. auto. }
  assert (forall x, In x (map p_source (map seen_para ps)) -> firm x /\ uid_free T x) as F.
  { intros x Hx. apply in_map_iff in Hx as (p & <- & Hx). specialize (Hp p Hx). split; [apply (p_firm W T shelved_code p Hp)|apply (p_free W T shelved_code p Hp)]. }
  assert (prepare T (sections (map coded_text ps)) = sections (map p_source (map seen_para ps))) as E.
  { unfold prepare. 
    replace (if t_restricted T then encode_html (sections (map coded_text ps)) false false else sections (map coded_text ps)) with (sections (map p_source (map seen_para ps))).
    - rewrite normalize_tidy. rewrite tidy_sections by (intros s Hx; apply F; exact Hx). apply replace_absent; [apply uid_ne; auto|]. apply sections_uid; auto. intros x Hx. apply F. exact Hx.
    - rewrite map_map. destruct (t_restricted T) eqn:Er.
      + fold (esc (sections (map coded_text ps))). rewrite esc_sections, map_map. f_equal. apply map_ext_in. intros p Hi. symmetry. apply esc_coded; auto.
      + f_equal. apply map_ext. intros p. symmetry. apply plain_coded; auto. }
  assert (is_empty (trim (sections (map coded_text ps))) = false) as Ht0.
  { destruct (p_first W T shelved_code (seen_para p0)) as (c & r & E0 & Hc); [apply Hp; left; reflexivity|].
    assert (exists c' r', coded_text p0 = c' :: r' /\ is_ws c' = false) as (c' & r' & E' & Hc').
    { destruct (t_restricted T) eqn:Er; [|rewrite <- plain_coded in E0 by auto; eauto]. rewrite <- esc_coded in E0; auto; [|apply H; left; reflexivity].
      destruct (coded_text p0) as [|c' r'] eqn:E'; [discriminate|]. exists c', r'. split; [reflexivity|]. rewrite esc_cons in E0. destruct (encode_other c') as [E1|(w & E1 & Hn & Hw)]; rewrite E1 in E0; [cbn [app] in E0; congruence|].
      unfold encode_char in E1. cbn [andb] in E1. destruct (N.eqb_spec c' 38) as [->|]; [reflexivity|]. destruct (N.eqb_spec c' 60) as [->|]; [reflexivity|]. destruct (N.eqb_spec c' 62) as [->|]; [reflexivity|]. subst w. specialize (Hw c' (or_introl eq_refl)). clear - Hw. vm_compute in Hw. repeat (destruct Hw as [<-|Hw]; [reflexivity|]). destruct Hw. }
    eapply trim_sections; [cbn [ps map]; rewrite E'; reflexivity|exact Hc']. }
  destruct (parse_paras W T shelved_code uid_simple shelved_page fuel [] (sections (map coded_text ps)) (map seen_para ps)) as (s & Es); auto; [apply cache_ok_nil|discriminate|].
  exists s. rewrite Es. f_equal. rewrite map_map. f_equal. apply map_ext. intros p. symmetry. apply coded_body.
Qed.
End Top.
Lemma inline_code W T fuel ps : ready T -> t_lite T = false -> (1 < fuel)%nat -> (forall p, In p ps -> coded_ok T p) ->
  exists s, parse W T fuel [] (sections (map coded_text ps)) = Ret (sections (map (coded_html T (line_break T)) ps)) s.
Proof. intros (Hu & Ht & Hs) Hl Hf H. rewrite <- final_break. apply code_documents; auto. Qed.

(** ** Deciding *)
Lemma uid_absent T t : contains (t_uid T) t = false -> token_free T t.
Proof. intros H a b ->. rewrite contains_mid in H. discriminate. Qed.
Lemma contains_within w t : contains w t = false -> ~ within_text w t.
Proof. intros H (a & b & ->). rewrite contains_mid in H. discriminate. Qed.
Lemma absent_char x t : existsb (N.eqb x) t = false -> ~ In x t.
Proof. intros H F. assert (existsb (N.eqb x) t = true) as E by (apply existsb_exists; exists x; split; [exact F|apply N.eqb_refl]). congruence. Qed.
Lemma no_br_dec t : forallb (fun w => negb (contains w t)) [u "<br"; u "<bR"; u "<Br"; u "<BR"] = true -> no_br t.
Proof.
  intros H a x y b -> Hx Hy. rewrite forallb_forall in H.
  assert (forall w, In w [u "<br"; u "<bR"; u "<Br"; u "<BR"] -> contains w (a ++ w ++ b) = true) as F by (intros; apply contains_mid).
  assert (In [60; x; y] [u "<br"; u "<bR"; u "<Br"; u "<BR"]) as Hi by (destruct Hx as [->| ->], Hy as [->| ->]; cbn [In]; [left|right; left|right; right; left|right; right; right; left]; reflexivity).
  specialize (H _ Hi). specialize (F _ Hi). cbv beta in H. cbn [app] in F. rewrite F in H. discriminate.
Qed.
