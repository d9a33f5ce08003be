(** The definitions of aliases in any text. *)
From Verif Require Import Str Unicode Regex RegexParse RegexSnips RegexTheory RegexAuto Lib ModelBase ModelHtml ModelInline ModelParser ProofHtml ProofParse ProofTags ProofDoc ProofWeave ProofSpecial ProofFootHits SpecState ProofState ProofSymbolHits
  SpecGlyphRules ProofGlyphRules ProofGlyphText SpecQuoted ProofQuoted SpecAliases.
#[local] Arguments u : simpl never.

(** ** Words *)
Fixpoint lit_re (p : str) : re := match p with [] => REps | [c] => RCls (one c) | c :: p' => RSeq (RCls (one c)) (lit_re p') end.
Fixpoint any_re (ps : list str) : re := match ps with [] => REps | [p] => lit_re p | p :: ps' => RAlt (lit_re p) (any_re ps') end.
Lemma m_lit p : p <> [] -> forall b t cs k, m (lit_re p) (mk_mst b t cs) k = match after p t with Some r => k (mk_mst (rev p ++ b) r cs) | None => None end.
Proof.
  induction p as [|c p IH]; intros Hp b t cs k; [congruence|]. destruct t as [|d t].
  - cbn [after]. destruct p; cbn [lit_re]; [apply m_cls_nil|]. rewrite m_seq. apply m_cls_nil.
  - cbn [after]. destruct p as [|e p].
    + cbn [lit_re after]. rewrite m_cls, in_one, N.eqb_sym. destruct (N.eqb_spec c d) as [->|]; reflexivity.
    + change (lit_re (c :: e :: p)) with (RSeq (RCls (one c)) (lit_re (e :: p))). rewrite m_seq, m_cls, in_one, N.eqb_sym. destruct (N.eqb_spec c d) as [->|]; [|reflexivity].
      rewrite IH by discriminate. destruct (after (e :: p) t); [|reflexivity]. cbn [rev]. rewrite <- !app_assoc. reflexivity.
Qed.
Lemma m_any ps : ps <> [] -> forallb (fun p => negb (is_empty p)) ps = true -> forall b t cs k,
  m (any_re ps) (mk_mst b t cs) k = first_of (fun p => match after p t with Some r => k (mk_mst (rev p ++ b) r cs) | None => None end) ps.
Proof.
  induction ps as [|p ps IH]; intros Hn Hp b t cs k; [congruence|]. cbn [forallb] in Hp. apply andb_true_iff in Hp as [Hp Hs]. assert (p <> []) as Hp' by (destruct p; [discriminate Hp|discriminate]).
  destruct ps as [|q ps].
  - cbn [any_re first_of]. rewrite m_lit by exact Hp'. symmetry. apply or_none.
  - change (any_re (p :: q :: ps)) with (RAlt (lit_re p) (any_re (q :: ps))). rewrite m_alt, m_lit by exact Hp'. rewrite IH by (auto; discriminate). reflexivity.
Qed.
Lemma after_is p : forall t r, after p t = Some r -> t = p ++ r.
Proof. induction p as [|c p IH]; intros [|d t] r H; cbn [after] in H; try congruence; try (injection H as <-; reflexivity). destruct (N.eqb_spec c d) as [->|]; [|discriminate]. cbn [app]. f_equal. apply IH, H. Qed.
Lemma after_app p r : after p (p ++ r) = Some r.
Proof. induction p as [|c p IH]; [destruct r; reflexivity|]. cbn [app after]. rewrite N.eqb_refl. exact IH. Qed.
Lemma run_app p w t : forallb p w = true -> run p (w ++ t) = (w ++ fst (run p t), snd (run p t)).
Proof. induction w as [|c w IH]; intros H; [cbn [app]; destruct (run p t); reflexivity|]. cbn [forallb] in H. apply andb_true_iff in H as [Hc H]. cbn [app run]. rewrite Hc, IH by exact H. reflexivity. Qed.
Lemma first_cuts {B} (f : str * str -> option B) w y : f (w, []) = Some y -> first_of f (cuts w) = Some y.
Proof.
  revert f. induction w as [|c w IH]; intros f H; cbn [cuts]; [cbn [first_of]; rewrite or_none; exact H|]. rewrite first_app, first_map. rewrite (IH (fun x => f (c :: fst x, snd x))) by exact H. reflexivity.
Qed.

(** ** The expression *)
Definition address_re (ps : list str) : re := RSeq (any_re ps) (RSeq (RCls solid_c) (RStar true (RCls solid_c))).
Definition look_re : re := RLook (RAlt (RCls space_c) (RAssert EOT)).
Definition def_re (ps : list str) : re :=
  RSeq (RAlt (RAssert SOT) (RBack space_c)) (RSeq (RCls (one 91)) (RSeq (RGroup 1 (RSeq (RCls line_c) (RStar true (RCls line_c)))) (RSeq (RCls (one 93)) (RSeq (RGroup 2 (address_re ps)) look_re)))).
Lemma def_shape (restricted : bool) : rx_re (if restricted then RESTRICTED_URLREF_RE else UNRESTRICTED_URLREF_RE) = def_re (beginnings restricted).
Proof. destruct restricted; vm_compute; reflexivity. Qed.
Lemma in_solid c : in_cls solid_c c = solid c.
Proof. unfold in_cls, solid_c, solid. cbn [c_neg c_items existsb in_item has_prop]. rewrite orb_false_r. destruct (is_ws c); reflexivity. Qed.

Section Defs.
Variable ps : list str.
Hypothesis ps_some : ps <> [].
Hypothesis ps_full : forallb (fun p => negb (is_empty p)) ps = true.
Hypothesis ps_solid : forallb (forallb solid) ps = true.
Definition end_k (t0 : str) : mst -> option mst := fun s => m look_re (mk_mst (m_before s) (m_after s) ((2%nat, (t0, m_after s)) :: m_caps s)) Some.
Lemma end_at t0 b r cs : match r with c :: _ => is_ws c = true | [] => True end -> end_k t0 (mk_mst b r cs) = Some (mk_mst b r ((2%nat, (t0, r)) :: cs)).
Proof. intros H. unfold end_k, look_re. cbn [m_before m_after m_caps]. rewrite m_look, m_alt. destruct r as [|c r]; [rewrite m_cls_nil, m_assert; reflexivity|]. rewrite m_cls, in_space_c, H. reflexivity. Qed.
Lemma solid_run t0 b t cs : m (RSeq (RCls solid_c) (RStar true (RCls solid_c))) (mk_mst b t cs) (end_k t0) =
  match t with c :: _ => if solid c then Some (mk_mst (rev (fst (run solid t)) ++ b) (snd (run solid t)) ((2%nat, (t0, snd (run solid t))) :: cs)) else None | [] => None end.
Proof.
  rewrite m_seq. destruct t as [|c t]; [apply m_cls_nil|]. rewrite m_cls, in_solid. destruct (solid c) eqn:Hc; [|reflexivity]. cbn [run]. rewrite Hc. destruct (run solid t) as [w r] eqn:E. destruct (run_split _ _ _ _ E) as (-> & Hw & Hr). cbn [fst snd rev].
  rewrite star_cuts; [|eapply stop_class; [apply in_solid|exact Hr]|eapply run_class; [apply in_solid|exact Hw]]. apply first_cuts. cbn [fst snd app]. rewrite end_at; [rewrite <- app_assoc; reflexivity|].
  destruct r as [|d r]; [exact I|]. unfold solid in Hr. destruct (is_ws d); [reflexivity|discriminate].
Qed.
Lemma address_is b t cs : m (address_re ps) (mk_mst b t cs) (end_k t) =
  option_map (fun y : str * str => mk_mst (rev (fst y) ++ b) (snd y) ((2%nat, (t, snd y)) :: cs)) (address_at ps t).
Proof.
  unfold address_re, address_at. rewrite m_seq, m_any by auto. clear ps_some ps_full.
  induction ps as [|p l IH]; [reflexivity|]. cbn [forallb] in ps_solid. apply andb_true_iff in ps_solid as [Hp Hl]. specialize (IH Hl). cbn [first_of existsb].
  destruct (after p t) as [r|] eqn:E; [|exact IH]. rewrite solid_run. destruct r as [|c r]; [exact IH|]. destruct (solid c) eqn:Hc; [|exact IH]. cbn [orb option_map].
  apply after_is in E. assert (run solid t = (p ++ fst (run solid (c :: r)), snd (run solid (c :: r)))) as -> by (rewrite E; apply run_app; exact Hp). cbn [fst snd]. rewrite rev_app_distr, <- app_assoc. reflexivity.
Qed.
Lemma start_at before t cs K : m (RAlt (RAssert SOT) (RBack space_c)) (mk_mst before t cs) K = if blank_before (hd_error before) then K (mk_mst before t cs) else None.
Proof. rewrite m_alt, m_assert. destruct before as [|x before]; cbn [assert_holds is_empty hd_error blank_before]; [rewrite m_back_nil; apply or_none|]. rewrite m_back, in_space_c. reflexivity. Qed.
Lemma def_match before t : match def_at ps (hd_error before) t with
  | Some (a, url, r) => exists s, match_at (def_re ps) before t = Some s /\ m_after s = r /\ t = (91 :: a ++ 93 :: url) ++ r /\ url <> [] /\
      cap_text 1 (m_caps s) = Some a /\ cap_text 2 (m_caps s) = Some url
  | None => match_at (def_re ps) before t = None
  end.
Proof.
  unfold match_at, def_re. rewrite m_seq, start_at. rewrite m_seq. destruct t as [|b t]; [rewrite m_cls_nil; cbn [def_at]; destruct (blank_before _); reflexivity|]. rewrite m_cls, in_one.
  destruct t as [|d t]; [cbn [def_at]; destruct (blank_before _); [|reflexivity]; destruct (b =? 91); [rewrite m_seq, m_group, m_seq, m_cls_nil|]; reflexivity|].
  cbn [def_at]. destruct (blank_before _); [|reflexivity]. cbn [andb]. destruct (N.eqb_spec b 91) as [->|]; [|reflexivity]. rewrite m_seq, m_group, m_seq, m_cls, in_line. cbn [andb]. destruct (d =? 10) eqn:Hd; [reflexivity|]. cbn [negb].
  destruct (run (fun c => negb (c =? 10)) t) as [w r] eqn:E. destruct (run_split _ _ _ _ E) as (Et & Hw & Hr). rewrite Et. rewrite star_cuts; [|eapply stop_class; [apply in_line|exact Hr]|eapply run_class; [apply in_line|exact Hw]].
  cbn [m_before m_after m_caps].
  assert (Hc : forall x, In x (cuts w) -> w = fst x ++ snd x) by (intros x; apply cuts_is).
  clear Et Hw Hr E t. induction (cuts w) as [|x l IH]; [reflexivity|]. specialize (IH (fun y Hy => Hc y (or_intror Hy))). specialize (Hc x (or_introl eq_refl)). cbn [first_of]. destruct x as [al rest]. cbn [fst snd] in *.
  rewrite m_seq. unfold closed_at. destruct (rest ++ r) as [|c q] eqn:Eq; [rewrite m_cls_nil; exact IH|]. rewrite m_cls, in_one. destruct (N.eqb_spec c 93) as [->|]; [|exact IH]. rewrite m_seq, m_group. fold (end_k q). rewrite address_is.
  destruct (address_at ps q) as [[url z]|] eqn:Ea; cbn [option_map]; [|exact IH]. cbn [fst snd]. eexists. split; [reflexivity|]. split; [reflexivity|].
  assert (q = url ++ z /\ url <> []) as [-> Hu].
  { unfold address_at in Ea. destruct (existsb _ ps) eqn:Ex; [|discriminate]. injection Ea as Ea. split; [apply (run_split _ _ _ _ Ea)|]. apply existsb_exists in Ex as (p & Hp & Ex). destruct (after p q) as [[|e q']|] eqn:Ep; try discriminate. apply after_is in Ep. subst q.
    rewrite forallb_forall in ps_solid. rewrite run_app in Ea by auto. injection Ea as Ea _. cbn [run] in Ea. rewrite Ex in Ea. destruct (run solid q') as [a0 b0]. cbn [fst] in Ea. rewrite <- Ea. destruct p; discriminate. }
  assert (w ++ r = al ++ 93 :: url ++ z) as -> by (rewrite Hc, <- app_assoc, Eq; reflexivity).
  split; [cbn [app]; rewrite <- app_assoc; reflexivity|]. split; [exact Hu|]. cbn [m_caps]. split; [apply (cap_is _ _ (d :: al) (93 :: url ++ z))|apply (cap_is _ _ url z)]; reflexivity.
Qed.
End Defs.

(** ** Turning an address back *)
Definition names : list str := [u "amp"; u "lt"; u "gt"; u "quot"; u "#39"; u "#13"; u "#10"; u "#9"].
Lemma entity_shape : rx_re ENTITY_RE = RGroup 1 (RSeq (RCls (one 38)) (RSeq (any_re names) (RCls (one 59)))).
Proof. vm_compute. reflexivity. Qed.
Lemma after_mid p t : after (p ++ [59]) t = match after p t with Some (c :: r) => if 59 =? c then Some r else None | _ => None end.
Proof.
  revert t. induction p as [|c p IH]; intros t; cbn [app after].
  - destruct t as [|d t]; [reflexivity|]. destruct (59 =? d); [destruct t|]; reflexivity.
  - destruct t as [|d t]; [reflexivity|]. destruct (c =? d); [apply IH|reflexivity].
Qed.
Lemma entity_first before t : match_at (rx_re ENTITY_RE) before t = first_of (fun e : str * option N => option_map (fun r => mk_mst (rev (fst e) ++ before) r [(1%nat, (t, r))]) (after (fst e) t)) escapes.
Proof.
  unfold match_at. rewrite entity_shape, m_group, m_seq. destruct t as [|c t]; [rewrite m_cls_nil; reflexivity|]. rewrite m_cls, in_one, N.eqb_sym.
  transitivity (first_of (fun p => option_map (fun r => mk_mst (rev (38 :: p ++ [59]) ++ before) r [(1%nat, (c :: t, r))]) (after (38 :: p ++ [59]) (c :: t))) names); [|reflexivity].
  cbn [after]. destruct (N.eqb_spec 38 c) as [<-|]; [|reflexivity]. rewrite m_seq, m_any by (reflexivity || discriminate). apply first_ext. intros p. rewrite after_mid. destruct (after p t) as [[|d r]|]; [rewrite m_cls_nil; reflexivity| |reflexivity].
  rewrite m_cls, in_one, N.eqb_sym. destruct (N.eqb_spec 59 d) as [<-|]; [|reflexivity]. cbn [option_map m_before m_after m_caps]. do 2 f_equal. cbn [rev]. rewrite rev_app_distr. cbn [rev app]. rewrite <- app_assoc. reflexivity.
Qed.
Lemma escape_match before t : match escape_at t with
  | Some (v, r) => exists e s, In (e, v) escapes /\ match_at (rx_re ENTITY_RE) before t = Some s /\ m_after s = r /\ t = e ++ r /\ cap_text 1 (m_caps s) = Some e
  | None => match_at (rx_re ENTITY_RE) before t = None
  end.
Proof.
  rewrite entity_first. unfold escape_at.
  assert (G : forall l : list (str * option N), (forall x, In x l -> In x escapes) ->
    match first_of (fun e : str * option N => option_map (fun r => (snd e, r)) (after (fst e) t)) l with
    | Some (v, r) => exists e s, In (e, v) escapes /\ first_of (fun e : str * option N => option_map (fun r => mk_mst (rev (fst e) ++ before) r [(1%nat, (t, r))]) (after (fst e) t)) l = Some s /\ m_after s = r /\ t = e ++ r /\ cap_text 1 (m_caps s) = Some e
    | None => first_of (fun e : str * option N => option_map (fun r => mk_mst (rev (fst e) ++ before) r [(1%nat, (t, r))]) (after (fst e) t)) l = None
    end); [|apply G; auto].
  induction l as [|[e v] l IH]; intros H; [reflexivity|]. cbn [first_of fst snd].
  destruct (after e t) as [r|] eqn:E; cbn [option_map]; [|apply IH; intros; apply H; right; auto]. exists e. eexists. split; [apply H; left; reflexivity|]. split; [reflexivity|]. apply after_is in E. split; [reflexivity|]. split; [exact E|]. apply (cap_is _ _ e r). rewrite E. reflexivity.
Qed.
Lemma one_escape h e v s : In (e, v) escapes -> cap_text 1 (h_caps h) = Some e -> reverse_entity h s = match v with Some c => Ret [c] s | None => Panic UnknownEntity end.
Proof. intros H E. unfold reverse_entity, capx. rewrite E. cbn [of_opt]. rewrite bind_ret. repeat (destruct H as [H|H]; [injection H as <- <-; reflexivity|]). destruct H. Qed.
Lemma escapes_full e v : In (e, v) escapes -> e <> [].
Proof. intros H. repeat (destruct H as [H|H]; [injection H as <- _; discriminate|]). destruct H. Qed.
Lemma unescape_end before last : scan (rx_re ENTITY_RE) before [] O last = [].
Proof. rewrite scan_nil. rewrite (entity_first before []). destruct last; reflexivity. Qed.
Lemma unescape_scan n : forall t before last s, (List.length t <= n)%nat ->
  match unescaped_of n t with
  | Some v => outcome_is (mapM (replace_segM reverse_entity) (scan (rx_re ENTITY_RE) before t O last) s) v s
  | None => mapM (replace_segM reverse_entity) (scan (rx_re ENTITY_RE) before t O last) s = Panic UnknownEntity
  end.
Proof.
  induction n as [|n IH]; intros t before last s Hn.
  { destruct t; [|cbn in Hn; lia]. rewrite unescape_end. exists []. split; reflexivity. }
  destruct t as [|d t]; [rewrite unescape_end; exists []; split; reflexivity|]. cbn [unescaped_of]. pose proof (escape_match before (d :: t)) as Q. destruct (escape_at (d :: t)) as [[v r]|].
  - destruct Q as (e & s0 & He & M & Ma & Et & C1). rewrite Et in M |- *. rewrite (scan_take _ _ e r s0) by (auto; eapply escapes_full; eauto). rewrite !mapM_cons. cbn [replace_segM].
    rewrite (one_escape (mk_hit_of (e ++ r) s0) e v s He C1). destruct v as [c|]; [|reflexivity].
    assert (Hl : (List.length r <= n)%nat). { apply (f_equal (@List.length N)) in Et. rewrite app_length in Et. cbn [List.length] in *. pose proof (escapes_full _ _ He). destruct e; [congruence|cbn [List.length] in *; lia]. }
    specialize (IH r (rev e ++ before) true s Hl). destruct (unescaped_of n r); cbn [option_map]; unfold bind.
    + destruct IH as (l & El & Ex). rewrite El. eexists. split; [reflexivity|]. cbn [List.concat]. rewrite Ex. reflexivity.
    + rewrite IH. reflexivity.
  - rewrite scan_cons, Q. specialize (IH t (d :: before) false s). destruct (unescaped_of n t); cbn [option_map mapM replace_segM]; unfold bind, ret.
    + destruct IH as (l & El & Ex); [cbn in Hn; lia|]. rewrite El. eexists. split; [reflexivity|]. cbn [List.concat]. rewrite Ex. reflexivity.
    + rewrite IH by (cbn in Hn; lia). reflexivity.
Qed.
Lemma unescape_exact t s : reverse_encode_html t s = match unescaped t with Some v => Ret v s | None => Panic UnknownEntity end.
Proof.
  unfold reverse_encode_html, replace_allM, segs. pose proof (unescape_scan (List.length t) t [] false s (le_n _)) as H. unfold unescaped. destruct (unescaped_of _ t); unfold bind.
  - destruct H as (l & El & <-). rewrite El. reflexivity.
  - rewrite H. reflexivity.
Qed.

(** ** All of them *)
Section Refs.
Variable T : textile.
Let ps := beginnings (t_restricted T).
Lemma ps_ok : ps <> [] /\ forallb (fun p => negb (is_empty p)) ps = true /\ forallb (forallb solid) ps = true.
Proof. unfold ps. destruct (t_restricted T); (split; [discriminate|split; vm_compute; reflexivity]). Qed.
Lemma ref_match before t : match def_at ps (hd_error before) t with
  | Some (a, url, r) => exists s, match_at (def_re ps) before t = Some s /\ m_after s = r /\ t = (91 :: a ++ 93 :: url) ++ r /\ url <> [] /\
      cap_text 1 (m_caps s) = Some a /\ cap_text 2 (m_caps s) = Some url
  | None => match_at (def_re ps) before t = None
  end.
Proof. destruct ps_ok as (H1 & H2 & H3). apply def_match; auto. Qed.
Lemma one_ref h a url s : cap_text 1 (h_caps h) = Some a -> cap_text 2 (h_caps h) = Some url ->
  f_ref T h s = match (if t_restricted T then unescaped url else Some url) with Some v => Ret [] (remember s (a, v)) | None => Panic UnknownEntity end.
Proof.
  intros C1 C2. unfold f_ref, capx. rewrite C1, C2. cbn [of_opt]. rewrite !bind_ret. unfold unrestrict_url, bind. destruct (t_restricted T); [|reflexivity]. rewrite unescape_exact. destruct (unescaped url); reflexivity.
Qed.
Lemma refs_end before last : scan (def_re ps) before [] O last = [].
Proof. rewrite scan_nil. pose proof (ref_match before []) as Q. cbn [def_at] in Q. rewrite Q. destruct last; reflexivity. Qed.
Lemma head_rev (a url before : str) : url <> [] -> hd_error (rev (91 :: a ++ 93 :: url) ++ before) = Some (last url 0).
Proof. intros H. destruct (exists_last H) as (w & c & ->). rewrite last_last. replace (91 :: a ++ 93 :: w ++ [c]) with ((91 :: a ++ 93 :: w) ++ [c]) by (cbn [app]; rewrite <- app_assoc; reflexivity). rewrite rev_app_distr. reflexivity. Qed.
Lemma refs_scan n : forall t before last s, (List.length t <= n)%nat ->
  match definitions (t_restricted T) (parts_of ps n (hd_error before) t) with
  | Some ds => outcome_is (mapM (replace_segM (f_ref T)) (scan (def_re ps) before t O last) s) (kept (parts_of ps n (hd_error before) t)) (fold_left remember ds s)
  | None => mapM (replace_segM (f_ref T)) (scan (def_re ps) before t O last) s = Panic UnknownEntity
  end.
Proof.
  induction n as [|n IH]; intros t before last s Hn.
  { destruct t; [|cbn in Hn; lia]. rewrite refs_end. exists []. split; reflexivity. }
  destruct t as [|d t]; [rewrite refs_end; exists []; split; reflexivity|]. cbn [parts_of]. pose proof (ref_match before (d :: t)) as Q. destruct (def_at ps (hd_error before) (d :: t)) as [[[a url] r]|].
  - destruct Q as (s0 & M & Ma & Et & Hu & C1 & C2). rewrite Et in M |- *. rewrite (scan_take _ _ (91 :: a ++ 93 :: url) r s0) by (auto; discriminate). rewrite !mapM_cons. cbn [replace_segM definitions].
    rewrite (one_ref (mk_hit_of ((91 :: a ++ 93 :: url) ++ r) s0) a url s C1 C2). destruct (if t_restricted T then unescaped url else Some url) as [v|]; [|reflexivity].
    assert (Hl : (List.length r <= n)%nat). { apply (f_equal (@List.length N)) in Et. cbn [List.length app] in Et. rewrite !app_length in Et. cbn [List.length] in *. lia. }
    specialize (IH r (rev (91 :: a ++ 93 :: url) ++ before) true (remember s (a, v)) Hl). rewrite head_rev in IH by exact Hu.
    destruct (definitions (t_restricted T) (parts_of ps n (Some (List.last url 0)) r)) as [ds|]; cbn [option_map]; unfold bind.
    + destruct IH as (l & El & Ex). rewrite El. eexists. split; [reflexivity|]. cbn [List.concat app]. rewrite Ex. reflexivity.
    + rewrite IH. reflexivity.
  - rewrite scan_cons, Q. specialize (IH t (d :: before) false s). cbn [hd_error] in IH. cbn [definitions mapM replace_segM]. destruct (definitions (t_restricted T) (parts_of ps n (Some d) t)) as [ds|]; unfold bind, ret.
    + destruct IH as (l & El & Ex); [cbn in Hn; lia|]. rewrite El. eexists. split; [reflexivity|]. cbn [List.concat]. rewrite Ex. reflexivity.
    + rewrite IH by (cbn in Hn; lia). reflexivity.
Qed.
Lemma refs_exact t s : get_refs T t s = match definitions (t_restricted T) (parts (t_restricted T) t) with
  | Some ds => Ret (kept (parts (t_restricted T) t)) (fold_left remember ds s)
  | None => Panic UnknownEntity
  end.
Proof.
  unfold get_refs. rewrite def_shape. unfold replace_allM, segs, parts. pose proof (refs_scan (List.length t) t [] false s (le_n _)) as H. cbn [hd_error] in H. fold ps. destruct (definitions _ _) as [ds|]; unfold bind.
  - destruct H as (l & El & <-). rewrite El. reflexivity.
  - rewrite H. reflexivity.
Qed.
Lemma parts_source n : forall t before, (List.length t <= n)%nat -> flat_map part_source (parts_of ps n (hd_error before) t) = t.
Proof.
  induction n as [|n IH]; intros t before Hn; [destruct t; [reflexivity|cbn in Hn; lia]|]. destruct t as [|d t]; [reflexivity|]. cbn [parts_of]. pose proof (ref_match before (d :: t)) as Q. destruct (def_at ps (hd_error before) (d :: t)) as [[[a url] r]|].
  - destruct Q as (s0 & _ & _ & Et & Hu & _). cbn [flat_map part_source]. rewrite <- (head_rev a url before Hu), IH; [symmetry; exact Et|]. apply (f_equal (@List.length N)) in Et. cbn [List.length app] in Et. rewrite !app_length in Et. cbn [List.length] in *. lia.
  - cbn [flat_map part_source app]. f_equal. apply (IH t (d :: before)). cbn in Hn. lia.
Qed.
End Refs.
Lemma all_source restricted t : flat_map part_source (parts restricted t) = t.
Proof. exact (parts_source (set_restricted restricted (default_textile [])) (List.length t) t [] (le_n _)). Qed.
