(** Documents of paragraphs with links: the whole parser. *)
From Verif Require ProofHtml.
From Verif Require Import Str Unicode Regex RegexParse RegexSnips RegexTheory RegexAuto RegexGroups Lib ModelBase ModelHtml ModelUrl
  ModelAttrs ModelInline ModelParser SpecRegex ProofRegex ProofCharref SpecParse ProofParse Logic ProofWalk ProofState SpecState ProofMemory ProofCache SpecLinks ProofLinks ProofDoc
  SpecPlain ProofPlain SpecNewlines ProofNewlines ProofParas ProofTags ProofSections ProofBlocks ProofStateEx SpecDoc ProofDocument SpecText ProofText ProofWeave ProofSpan ProofSpanRe ProofSpanText SpecSpans ProofSpanDoc ProofSpanPage
  SpecSigned ProofSigned ProofSignedDoc ProofSignedPage ProofSignedEnd ProofSignedTop ProofPages ProofItems SpecCode ProofCode SpecLinked ProofLinkAuto ProofStock ProofStockDoc ProofCodeDoc ProofCodePage ProofLinked ProofLinkedDoc ProofCodeTop.
#[local] Arguments u : simpl never.
Section Top.
Variables (W : world) (T : textile).
Hypothesis uid_simple : simple_uid (t_uid T).
Hypothesis Hrel : rel_ok T.
Notation fb := (final_br T).
Definition stored_of (p : linked_para) : stored := linked_stored T (fst p) (snd p).
Lemma stored_source p : d_source (stored_of p) = linked_text p.
Proof. symmetry. apply link_source. Qed.
Lemma stored_body p : element (u "p") (d_body (stored_of p) fb) = linked_html T fb p.
Proof. reflexivity. Qed.
Lemma stage_many l : forall n, many (stage_kept T n l) = 2 * N.of_nat (List.length l).
Proof.
  induction l as [|[[k y] t] l IH]; intros n; [reflexivity|]. cbn [stage_kept kept_of app]. specialize (IH (n + 2)). unfold many in *. cbn [List.length]. lia.
Qed.
Lemma many_all ps : forall n, many (kept_all n (map stored_of ps)) = 2 * fold_right N.add 0 (map links_in ps).
Proof.
  induction ps as [|p ps IH]; intros n; [reflexivity|]. cbn [map kept_all fold_right]. rewrite many_app, IH. unfold stored_of at 1, linked_stored at 1. cbn [d_kept]. rewrite stage_many. rewrite N.mul_add_distr_l. reflexivity.
Qed.
Lemma source_esc p : linked_ok W T p -> esc (linked_text p) = linked_text p.
Proof.
  intros H. rewrite link_source. pose proof (source_accepts_l W T _ _ (linked_shape W T p H)) as HA.
  assert (forall r, In r [RCls (ch 38); RCls (ch 60); RCls (ch 62)] -> no_match r (fst p ++ source_text (snd p))) as N by (intros r Hr; eapply never_in; [|exact HA|exact Hr]; vm_compute; reflexivity).
  apply esc_id; apply no_match_ch, N; cbn [In]; tauto.
Qed.
Lemma link_documents fuel ps : (2 < fuel)%nat -> t_sanitize T = None -> t_block_tags T = true -> (forall p, In p ps -> linked_ok W T p) -> 2 * fold_right N.add 0 (map links_in ps) <= u32_max ->
  exists s, parse W T fuel [] (sections (map linked_text ps)) = Ret (sections (map (linked_html T fb) ps)) s.
Proof.
  intros Hf Hs Ht H Hm. destruct ps as [|p0 ps0]; [eexists; reflexivity|]. set (ps := p0 :: ps0) in *.
  assert (forall p, In p (map stored_of ps) -> steady W T shelved_code p) as Hp.
  { intros p Hp. apply in_map_iff in Hp as (q & <- & Hq). apply linked_steady; auto. apply linked_shape. auto. }
  assert (map d_source (map stored_of ps) = map linked_text ps) as Es by (rewrite map_map; apply map_ext; intros p; apply stored_source).
  assert (forall x, In x (map linked_text ps) -> firm x /\ uid_free T x) as F.
  { intros x Hx. rewrite <- Es in Hx. apply in_map_iff in Hx as (p & <- & Hx). specialize (Hp p Hx). split; [apply (d_firm W T shelved_code p Hp)|apply (d_free W T shelved_code p Hp)]. }
  assert (prepare T (sections (map linked_text ps)) = sections (map linked_text ps)) as E.
  { unfold prepare.
    replace (if t_restricted T then encode_html (sections (map linked_text ps)) false false else sections (map linked_text ps)) with (sections (map linked_text ps)).
    - rewrite normalize_tidy. rewrite tidy_sections by (intros s Hx; apply F; exact Hx). apply replace_absent; [apply uid_ne; auto|]. apply sections_uid; auto. intros x Hx. apply F. exact Hx.
    - destruct (t_restricted T) eqn:Er; [|reflexivity]. fold (esc (sections (map linked_text ps))). rewrite esc_sections, map_map. f_equal. apply map_ext_in. intros p Hi. symmetry. apply source_esc; auto. }
  assert (is_empty (trim (sections (map linked_text ps))) = false) as Ht0.
  { destruct (d_first W T shelved_code (stored_of p0)) as (c & r & E0 & Hc); [apply Hp; left; reflexivity|]. rewrite stored_source in E0. eapply trim_sections; [cbn [ps map]; rewrite E0; reflexivity|exact Hc]. }
  destruct (parse_stored W T shelved_code uid_simple shelved_page fuel [] (sections (map linked_text ps)) (map stored_of ps)) as (s & Ep); auto; [apply cache_ok_nil|discriminate|rewrite many_all; exact Hm|rewrite Es; exact E|].
  exists s. rewrite Ep. rewrite map_map. reflexivity.
Qed.
End Top.
Lemma linked_documents W T fuel ps : ready T -> rel_ok T -> (2 < fuel)%nat -> (forall p, In p ps -> linked_ok W T p) -> 2 * fold_right N.add 0 (map links_in ps) <= u32_max ->
  exists s, parse W T fuel [] (sections (map linked_text ps)) = Ret (sections (map (linked_html T (line_break T)) ps)) s.
Proof. intros (Hu & Ht & Hs) Hr Hf H Hm. rewrite <- final_break. apply link_documents; auto. Qed.
