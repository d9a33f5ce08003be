(** Documents of paragraphs with images: the whole parser. *)
From Verif Require ProofHtml.
From Verif Require Import Str Unicode Regex RegexParse RegexSnips RegexTheory RegexAuto RegexGroups Lib ModelBase ModelHtml ModelUrl
  ModelAttrs ModelInline ModelParser SpecRegex ProofRegex ProofCharref SpecParse ProofParse Logic ProofWalk ProofState SpecState ProofMemory ProofCache SpecLinks ProofLinks ProofDoc
  SpecPlain ProofPlain SpecNewlines ProofNewlines ProofParas ProofWeave ProofListText ProofTags ProofSections ProofBlocks ProofStateEx SpecDoc ProofDocument SpecText ProofText ProofSpan ProofSpanRe ProofSpanText SpecSpans ProofSpanDoc ProofSpanPage
  SpecSigned ProofSigned ProofSignedDoc ProofSignedPage ProofSignedEnd ProofSignedTop ProofPages ProofItems SpecCode ProofCode SpecLinked ProofLinkAuto ProofStock ProofStockDoc ProofCodeDoc ProofCodePage ProofLinked ProofLinkedDoc ProofCodeTop SpecImages ProofImageAuto ProofImages ProofImaged ProofImagedDoc.
#[local] Arguments u : simpl never.
Section Top.
Variables (W : world) (T : textile).
Hypothesis uid_simple : simple_uid (t_uid T).
Hypothesis no_sizes : t_get_sizes T = false.
Hypothesis images_on : t_noimage T = false.
Notation fb := (final_br T).
Definition shown_of (p : pictured) : stored := pictured_stored T (fst p) (snd p).
(** ** What restricted mode makes of the text *)
Definition seen_as (t : str) : str := if t_restricted T then esc t else t.
Lemma seen_app a b : seen_as (a ++ b) = seen_as a ++ seen_as b.
Proof. unfold seen_as. destruct (t_restricted T); [|reflexivity]. unfold esc, encode_html. apply flat_map_app. Qed.
Lemma seen_same t : ~ In 38 t -> ~ In 60 t -> ~ In 62 t -> seen_as t = t.
Proof. intros H1 H2 H3. unfold seen_as. destruct (t_restricted T); [|reflexivity]. apply esc_same; auto. Qed.
Lemma piece_seen A t : A = paragraph \/ A = before_code \/ A = between_code \/ A = after_code -> accepts A t -> seen_as t = t.
Proof.
  intros HA H. assert (forallb (fun A => forallb (never A) [RCls (ch 38); RCls (ch 60); RCls (ch 62)]) [paragraph; before_code; between_code; after_code] = true) as F by (vm_compute; reflexivity). rewrite forallb_forall in F.
  assert (forall r, In r [RCls (ch 38); RCls (ch 60); RCls (ch 62)] -> no_match r t) as N by (intros r Hr; eapply never_in; [|exact H|exact Hr]; apply F; cbn [In]; intuition (subst; auto)).
  apply seen_same; apply no_match_ch, N; cbn [In]; tauto.
Qed.
Lemma url_seen v : written_url v -> seen_as v = v.
Proof. intros H. apply seen_same; apply url_without; auto; cbn [In]; tauto. Qed.
Lemma image_is p : placed_ok W T p -> seen_as (image_text (pl_image p)) = image_seen T (pl_image p).
Proof.
  intros (((Hu & _) & _ & Ha & Hh) & _). destruct p as [i sy hy t]. cbn [pl_image] in *. unfold image_text, image_seen, seen. rewrite !seen_app.
  assert (forall t, existsb (fun c => existsb (N.eqb c) [38; 60; 62]) t = false -> seen_as t = t) as C.
  { intros z Hz. apply seen_same; intros F; assert (existsb (fun c => existsb (N.eqb c) [38; 60; 62]) z = true); try congruence; apply existsb_exists; eexists; (split; [exact F|reflexivity]). }
  rewrite (url_seen _ Hu), !(C (u "!")) by reflexivity. change (u "!") with [33]. cbn [app]. f_equal. f_equal; [|f_equal].
  - destruct (im_side i) as [sd|]; cbn [maybe option_map]; [|unfold seen_as; destruct (t_restricted T); reflexivity]. unfold seen_as, side_seen. destruct sd; destruct (t_restricted T); reflexivity.
  - f_equal.
    + destruct (im_alt i) as [x|]; cbn [maybe alt_seen]; [|unfold seen_as; destruct (t_restricted T); reflexivity]. rewrite !seen_app, (C (u "(")), (C (u ")")) by reflexivity. destruct (Ha x eq_refl) as [Hx _].
      rewrite seen_same; [reflexivity|..]; apply (label_char x _ Hx); vm_compute; tauto.
    + f_equal. destruct (im_href i) as [h|]; cbn [maybe href_seen]; [|unfold seen_as; destruct (t_restricted T); reflexivity]. rewrite seen_app, (C (u ":")) by reflexivity. rewrite url_seen by (apply (Hh h eq_refl)). reflexivity.
Qed.
Lemma text_is l : images_follow W T l -> seen_as (flat_map (fun x => image_text (pl_image x) ++ pl_text x) l) = seen_text T l.
Proof.
  induction l as [|p l IH]; intros Hl; [unfold seen_as; destruct (t_restricted T); reflexivity|]. apply follows_placed in Hl as (Hp & Ht & _ & _ & Hl). unfold seen_text. cbn [flat_map]. fold (seen_text T l). rewrite !seen_app, image_is, IH by auto.
  replace (seen_as (pl_text p)) with (pl_text p); [rewrite <- app_assoc; reflexivity|]. symmetry. destruct Ht as [Ht|Ht]; [apply (piece_seen between_code)|apply (piece_seen after_code)]; auto.
Qed.
Lemma stored_seen p : pictured_ok W T p -> d_source (shown_of p) = seen_as (pictured_text p).
Proof.
  intros H. apply pictured_shape in H. unfold shown_of, pictured_stored, pictured_text. cbn [d_source]. rewrite seen_app. destruct H as [[-> H]|(_ & H & Hl)].
  - rewrite (piece_seen paragraph) by auto. f_equal. unfold seen_as. destruct (t_restricted T); reflexivity.
  - rewrite (piece_seen before_code), text_is by auto. reflexivity.
Qed.
Lemma shown_many l : forall n, many (shown_kept T n l) <= 3 * N.of_nat (List.length l).
Proof.
  induction l as [|p l IH]; intros n; [vm_compute; discriminate|]. cbn [shown_kept]. rewrite many_app, entries_many. specialize (IH (n + size_of p)). assert (size_of p <= 3) by (unfold size_of; destruct (im_href (pl_image p)); lia). cbn [List.length]. lia.
Qed.
Lemma many_shown ps : forall n, many (kept_all n (map shown_of ps)) <= 3 * fold_right N.add 0 (map images_in ps).
Proof.
  induction ps as [|p ps IH]; intros n; [vm_compute; discriminate|]. cbn [map kept_all fold_right]. rewrite many_app. unfold shown_of at 1, pictured_stored at 1. cbn [d_kept]. pose proof (shown_many (snd p) n) as H1. unfold images_in at 1.
  match goal with |- ?a + many (kept_all ?m _) <= _ => specialize (IH m) end. lia.
Qed.
Lemma image_documents fuel ps : (2 < fuel)%nat -> t_sanitize T = None -> t_block_tags T = true -> (forall p, In p ps -> pictured_ok W T p) -> 3 * fold_right N.add 0 (map images_in ps) <= u32_max ->
  exists s, parse W T fuel [] (sections (map pictured_text ps)) = Ret (sections (map (pictured_html T fb) ps)) s.
Proof.
  intros Hf Hs Ht H Hm. destruct ps as [|p0 ps0]; [eexists; reflexivity|]. set (ps := p0 :: ps0) in *.
  assert (forall p, In p (map shown_of ps) -> steady W T shelved_code p) as Hp.
  { intros p Hp. apply in_map_iff in Hp as (q & <- & Hq). apply pictured_steady; auto. apply pictured_shape. auto. }
  assert (map d_source (map shown_of ps) = map (fun p => seen_as (pictured_text p)) ps) as Es by (rewrite map_map; apply map_ext_in; intros p Hi; apply stored_seen; auto).
  assert (forall x, In x (map d_source (map shown_of ps)) -> firm x /\ uid_free T x) as F.
  { intros x Hx. apply in_map_iff in Hx as (p & <- & Hx). specialize (Hp p Hx). split; [apply (d_firm W T shelved_code p Hp)|apply (d_free W T shelved_code p Hp)]. }
  assert (prepare T (sections (map pictured_text ps)) = sections (map d_source (map shown_of ps))) as E.
  { unfold prepare.
    replace (if t_restricted T then encode_html (sections (map pictured_text ps)) false false else sections (map pictured_text ps)) with (sections (map d_source (map shown_of ps))).
    - rewrite normalize_tidy. rewrite tidy_sections by (intros s Hx; apply F; exact Hx). apply replace_absent; [apply uid_ne; auto|]. apply sections_uid; auto. intros x Hx. apply F. exact Hx.
    - rewrite Es. unfold seen_as. destruct (t_restricted T) eqn:Er; [|reflexivity]. fold (esc (sections (map pictured_text ps))). rewrite esc_sections, map_map. reflexivity. }
  assert (is_empty (trim (sections (map pictured_text ps))) = false) as Ht0.
  { destruct (d_first W T shelved_code (shown_of p0)) as (c & r & E0 & Hc); [apply Hp; left; reflexivity|]. rewrite stored_seen in E0 by (apply H; left; reflexivity).
    destruct (pictured_text p0) as [|c' r'] eqn:E1; [unfold seen_as in E0; destruct (t_restricted T); discriminate|]. eapply trim_sections; [cbn [ps map]; rewrite E1; reflexivity|].
    destruct (is_ws c') eqn:Ew; [|reflexivity]. exfalso. unfold seen_as in E0. destruct (t_restricted T); [|congruence]. unfold esc, encode_html in E0. cbn [flat_map] in E0.
    assert (encode_char false false c' = [c']) as Q. { unfold encode_char. destruct (N.eqb_spec c' 38) as [->|]; [discriminate|]. destruct (N.eqb_spec c' 60) as [->|]; [discriminate|]. destruct (N.eqb_spec c' 62) as [->|]; [discriminate|]. reflexivity. }
    rewrite Q in E0. injection E0 as -> _. congruence. }
  destruct (parse_stored W T shelved_code uid_simple shelved_page fuel [] (sections (map pictured_text ps)) (map shown_of ps)) as (s & Ep); auto; [apply cache_ok_nil|discriminate|eapply N.le_trans; [apply many_shown|exact Hm]|].
  exists s. rewrite Ep. rewrite map_map. reflexivity.
Qed.
End Top.
Lemma pictured_documents W T fuel ps : ready T -> t_get_sizes T = false -> t_noimage T = false -> (2 < fuel)%nat -> (forall p, In p ps -> pictured_ok W T p) -> 3 * fold_right N.add 0 (map images_in ps) <= u32_max ->
  exists s, parse W T fuel [] (sections (map pictured_text ps)) = Ret (sections (map (pictured_html T (line_break T)) ps)) s.
Proof. intros (Hu & Ht & Hs) Hg Hi Hf H Hm. rewrite <- final_break. apply image_documents; auto. Qed.
