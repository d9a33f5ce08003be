(** Documents of paragraphs, by what the inline phase makes of each and puts on the shelf. *)
From Verif Require Import Str Unicode Regex RegexParse RegexSnips RegexTheory RegexAuto RegexGroups Lib ModelBase ModelHtml ModelUrl
  ModelAttrs ModelInline ModelParser SpecRegex ProofRegex ProofCharref SpecParse ProofParse Logic ProofWalk ProofState SpecState ProofMemory ProofCache ProofLinks ProofDoc
  SpecPlain ProofPlain SpecNewlines ProofNewlines ProofParas ProofTags ProofSections ProofBlocks ProofStateEx SpecDoc ProofDocument SpecText ProofText SpecSigned ProofSigned ProofSignedDoc ProofSignedPage ProofSignedEnd ProofSignedTop.
#[local] Arguments u : simpl never.

(** ** Several pieces of HTML *)
Definition pages_of (A : auto) : auto := mk_auto (au_trans (shown_of A) ++ [(314, newline, 315); (315, newline, 300)])%nat 300%nat [314%nat].
Definition page_rx : list rx := [DIVIDER_RE; UNWRAPPABLE_RE; WRAPPED_RE; PBR_BR_RE].
Definition page_small : list re := [RCls (ch 60); nl_space].
Definition page_family (A : auto) : bool :=
  forallb (fun r => never A (rx_re r)) page_rx && forallb (never A) page_small
  && never (pages_of A) (rx_re TEXT_NOTELIST_RE)
  && forallb (fun tr => implb (in_cls (snd (fst tr)) 10) (Nat.eqb (snd tr) 1)) (au_trans A) && negb (mem (au_start A) (au_final A)).

(** ** What comes back from the shelf *)
Section Restore.
Variable T : textile.
Hypothesis uid_simple : simple_uid (t_uid T).
Notation tok n := (fragment_token T n).
Definition cutter (d : N) : Prop := forallb (fun x => negb (x =? d)) uid_all = true /\ forallb (fun x => negb (x =? d)) (u "0123456789:shelve") = true.
Lemma tok_cutter n d : cutter d -> ~ In d (tok n).
Proof. intros [H1 H2]. apply tok_without; auto. Qed.
Lemma uid_cutter d : cutter d -> ~ In d (t_uid T).
Proof. intros [H1 _]. apply uid_without; auto. Qed.
Lemma uid_cut_at d a b : cutter d -> contains (t_uid T) (a ++ d :: b) = contains (t_uid T) a || contains (t_uid T) b.
Proof. intros H. apply contains_cut; [apply uid_cutter; auto|apply uid_ne; auto]. Qed.
Section Shelf.
Variable shelf : list (str * str).
Hypothesis Hto : tokens T shelf.
Hypothesis Hnd : NoDup (map fst shelf).
Inductive restores : str -> str -> Prop :=
| rs_plain w : uid_free T w -> restores w w
| rs_tok i x : In (tok i, x) shelf -> uid_free T x -> restores (tok i) x
| rs_cut x y d x' y' : cutter d -> restores x y -> restores x' y' -> restores (x ++ d :: x') (y ++ d :: y').
Lemma pass_cut_at : forall a d b, cutter d -> retrieve_pass shelf (a ++ d :: b) = retrieve_pass shelf a ++ d :: retrieve_pass shelf b.
Proof.
  intros a d b Hd. clear Hnd. revert a b. unfold retrieve_pass. induction shelf as [|[k v] sh IH]; intros a b; [reflexivity|]. cbn [fold_left fst snd].
  destruct (Hto k (or_introl eq_refl)) as (i & ->). rewrite replace_cut by (auto using tok_cutter, tok_ne). apply IH. intros k Hk. apply Hto. right. auto.
Qed.
Lemma rs_pass x y : restores x y -> retrieve_pass shelf x = y.
Proof.
  intros H. induction H as [w Hw|i x Hi Hx|x y d x' y' Hd H1 IH1 H2 IH2].
  - apply (pass_absent T uid_simple); auto.
  - apply (pass_token T uid_simple); auto.
  - rewrite pass_cut_at by auto. rewrite IH1, IH2. reflexivity.
Qed.
Lemma rs_uid x y : restores x y -> uid_free T y.
Proof. intros H. induction H as [w Hw|i x Hi Hx|x y d x' y' Hd H1 IH1 H2 IH2]; auto. unfold uid_free in *. rewrite uid_cut_at, IH1, IH2 by auto. reflexivity. Qed.
Lemma rs_nil : restores [] [].
Proof. apply rs_plain, uid_no_colon; auto. Qed.
Lemma cutter_10 : cutter 10. Proof. split; reflexivity. Qed.
Lemma cutter_60 : cutter 60. Proof. split; reflexivity. Qed.
Lemma cutter_62 : cutter 62. Proof. split; reflexivity. Qed.
Lemma rs_element x y : restores x y -> restores (element (u "p") x) (element (u "p") y).
Proof.
  intros H. unfold element. change (u "<" ++ u "p" ++ u ">" ++ ?z) with ([60; 112] ++ 62 :: z). change (u "</" ++ u "p" ++ u ">") with (60 :: [47; 112; 62]).
  apply rs_cut; [apply cutter_62|apply rs_plain, uid_no_colon; auto; vm_compute; intuition discriminate|]. apply rs_cut; [apply cutter_60|exact H|]. apply rs_plain, uid_no_colon; auto. vm_compute; intuition discriminate.
Qed.
Lemma rs_sections xs ys : Forall2 restores xs ys -> restores (sections xs) (sections ys).
Proof.
  intros H. induction H as [|x y xs ys Hxy H IH]; [apply rs_nil|]. destruct H as [|x' y' xs ys Hxy' H]; [exact Hxy|]. rewrite !sections_cons by discriminate.
  apply rs_cut; [apply cutter_10|exact Hxy|]. apply (rs_cut [] [] 10); [apply cutter_10|apply rs_nil|exact IH].
Qed.
End Shelf.
End Restore.

(** ** Documents *)
Record para := mk_para { p_source : str; p_stage : N -> str; p_kept : list str; p_body : str -> str }.
Section Pages.
Variables (W : world) (T : textile) (A : auto).
Hypothesis uid_simple : simple_uid (t_uid T).
Hypothesis HA : page_family A = true.
Notation tok n := (fragment_token T n).
Notation br := (br_tag T).
Notation fb := (final_br T).
Record sound (p : para) : Prop := mk_sound {
  p_firm : firm (p_source p);
  p_free : uid_free T (p_source p);
  p_tag : no_match (rx_re (if t_lite T then TEXTILE_LIGHT_TAG_RE else TEXTILE_TAG_RE)) (p_source p);
  p_divider : no_match (rx_re DIVIDER_RE) (p_source p);
  p_notedef : no_match (rx_re NOTEDEF_RE) (p_source p);
  p_first : exists c r, p_source p = c :: r /\ is_ws c = false;
  p_runs : forall fuel n s, (0 < fuel)%nat -> @cache_ok (own T) (ps_cache s) -> ps_borrowed s = false ->
    exists c, @cache_ok (own T) c /\ graf_n W T fuel (S n) (p_source p) s = Ret (p_stage p (ps_ref_index s)) (puts T (p_kept p) (set_cache c s));
  p_accepts : forall n, accepts A (p_stage p n);
  p_back : forall shelf n, incl (numbered T n (p_kept p)) shelf -> restores T shelf (breaks br (p_stage p n)) (p_body p br);
  p_brs : forall a b, brs br fb a b -> brs br fb (element (u "p") (p_body p br) ++ a) (element (u "p") (p_body p fb) ++ b) }.
Lemma page_parts : forallb (fun r => never A (rx_re r)) page_rx = true /\ forallb (never A) page_small = true /\
  never (pages_of A) (rx_re TEXT_NOTELIST_RE) = true /\ (forall q k q', In (q, k, q') (au_trans A) -> in_cls k 10 = true -> q' = 1%nat) /\ ~ In (au_start A) (au_final A).
Proof.
  unfold page_family in HA. do 4 (apply andb_prop in HA as [HA ?]). repeat split; auto.
  - intros q k q' Hi Hk. match goal with H : forallb (fun tr => implb _ _) _ = true |- _ => rewrite forallb_forall in H; specialize (H _ Hi); cbn [fst snd] in H; rewrite Hk in H; apply Nat.eqb_eq in H; exact H end.
  - intros F. apply mem_in in F. match goal with H : negb _ = true |- _ => rewrite F in H; discriminate end.
Qed.
Lemma stage_ne t : accepts A t -> t <> [].
Proof. intros H ->. destruct page_parts as (_ & _ & _ & _ & F). inversion H; subst. auto. Qed.
Lemma stage_60 t : accepts A t -> ~ In 60 t.
Proof. intros H. apply no_match_ch. eapply never_in; [apply page_parts|exact H|cbn; tauto]. Qed.
Lemma stage_wrapped t : accepts A t -> wrapped t = element (u "p") t.
Proof.
  intros H. assert (forall r, In r page_rx -> no_match (rx_re r) t) as B by (intros r Hr; eapply never_rx; [apply page_parts|exact H|exact Hr]).
  unfold wrapped, has_raw_text. rewrite !is_match_no_match by (apply B; cbn [In page_rx]; tauto). rewrite captures_no_match by (apply B; cbn [In page_rx]; tauto).
  pose proof (stage_ne t H). destruct t; [congruence|reflexivity].
Qed.
Lemma stage_br t : accepts A t -> forall s, do_p_br T (wrapped t) s = Ret (element (u "p") (breaks br t)) s.
Proof.
  intros H s. rewrite stage_wrapped by auto. apply do_p_br_element; [left; reflexivity|apply stage_60; auto|]. eapply never_in; [apply page_parts|exact H|cbn; tauto].
Qed.
Lemma stage_tag t : accepts A t -> replace_all (rx_re BR_TAG_RE) (fun _ => br) (element (u "p") (breaks br t)) = element (u "p") (breaks br t).
Proof. intros H. apply element_br_tag; [left; reflexivity|apply stage_60; auto]. Qed.

Fixpoint staged (n : N) (ps : list para) : list str :=
  match ps with [] => [] | p :: rest => element (u "p") (breaks br (p_stage p n)) :: staged (n + size (p_kept p)) rest end.
Definition acc (out : list str) (ws : str) (tag : str) : block_acc := mk_bl out ws false [] tag [] None [] false.
Lemma para_step fuel n p out ws tag s : (0 < fuel)%nat -> sound p -> @cache_ok (own T) (ps_cache s) -> ps_borrowed s = false ->
  exists c, @cache_ok (own T) c /\ block_step W T (graf_n W T fuel (S n)) (acc out ws tag) (p_source p) s =
    Ret (acc ((ws ++ element (u "p") (breaks br (p_stage p (ps_ref_index s)))) :: out) [] (u "p")) (puts T (p_kept p) (set_cache c s)).
Proof.
  intros Hf [P1 P2 P3 P4 P5 (x & r & P6 & P7) P8 P9 _ _] Hc Hn. destruct (P8 fuel n s Hf Hc Hn) as (c & Hc' & E). exists c. split; auto.
  rewrite anon_step; auto.
  - unfold bind at 1. rewrite E. unfold bind at 1. rewrite stage_br by auto. unfold ret. unfold acc. cbn [bl_ws bl_out]. rewrite stage_tag by auto. reflexivity.
  - destruct (is_empty _) eqn:Ee; auto. apply is_empty_nil in Ee. unfold trim in Ee. apply trim_by_nil in Ee. rewrite P6 in Ee. cbn [forallb] in Ee. rewrite P7 in Ee. discriminate.
  - apply captures_no_match; auto.
  - apply is_match_no_match; auto.
  - rewrite P6. change (u " ") with [32]. cbn [starts_with]. destruct (N.eqb_spec 32 x) as [<-|]; [discriminate|reflexivity].
Qed.
Lemma paras_fold fuel n : (0 < fuel)%nat -> forall ps out ws tag s, (forall p, In p ps -> sound p) -> ps <> [] -> @cache_ok (own T) (ps_cache s) -> ps_borrowed s = false ->
  exists out' c, @cache_ok (own T) c /\ foldM (block_step W T (graf_n W T fuel (S n))) (acc out ws tag) (section_pieces (map p_source ps)) s =
    Ret (acc out' [] (u "p")) (puts T (flat_map p_kept ps) (set_cache c s)) /\
    List.concat (rev out') = List.concat (rev out) ++ ws ++ sections (staged (ps_ref_index s) ps).
Proof.
  intros Hf. induction ps as [|p ps IH]; intros out ws tag s Hp Hne Hc Hn; [congruence|].
  destruct (para_step fuel n p out ws tag s Hf (Hp p (or_introl eq_refl)) Hc Hn) as (c1 & Hc1 & E1).
  destruct ps as [|p' ps].
  - eexists _, c1. split; [exact Hc1|]. cbn [map section_pieces foldM flat_map]. rewrite app_nil_r. split; [unfold bind; rewrite E1; reflexivity|].
    cbn [rev staged sections]. rewrite concat_app. cbn [List.concat]. rewrite app_nil_r. reflexivity.
  - set (s1 := puts T (p_kept p) (set_cache c1 s)) in *. destruct (puts_own T (p_kept p) (set_cache c1 s)) as (P1 & P2 & _ & _). fold s1 in P1, P2.
    destruct (IH ((ws ++ element (u "p") (breaks br (p_stage p (ps_ref_index s)))) :: out) [10; 10] (u "p") s1) as (out' & c2 & Hc2 & E2 & O2).
    { intros q Hq. apply Hp. right. exact Hq. } { discriminate. } { rewrite P1. exact Hc1. } { rewrite P2. exact Hn. }
    exists out', c2. split; auto. split.
    + change (section_pieces (map p_source (p :: p' :: ps))) with (p_source p :: [10; 10] :: section_pieces (map p_source (p' :: ps))). cbn [foldM]. unfold bind at 1. rewrite E1. fold s1.
      unfold bind at 1. rewrite blank_any. cbn [acc bl_out bl_ws bl_eat_ws bl_ext bl_tag bl_atts bl_cite bl_closing bl_eat app]. unfold acc in E2 |- *. cbn [bl_out bl_ws bl_eat_ws bl_ext bl_tag bl_atts bl_cite bl_closing bl_eat app] in E2 |- *. rewrite E2. f_equal.
      change (flat_map p_kept (p :: p' :: ps)) with (p_kept p ++ flat_map p_kept (p' :: ps)). rewrite puts_app. unfold s1. f_equal. destruct (puts_own T (p_kept p) s) as (_ & _ & _ & Q). rewrite !Q. reflexivity.
    + rewrite O2. cbn [rev]. rewrite concat_app. cbn [List.concat]. rewrite app_nil_r, <- !app_assoc. do 2 f_equal.
      change (staged (ps_ref_index s) (p :: p' :: ps)) with (element (u "p") (breaks br (p_stage p (ps_ref_index s))) :: staged (ps_ref_index s + size (p_kept p)) (p' :: ps)). rewrite sections_cons by discriminate.
      unfold s1. rewrite puts_ref. reflexivity.
Qed.
(** No note list. *)
Lemma shown_more : incl (au_trans (shown_of A)) (au_trans (pages_of A)).
Proof. intros x Hx. cbn [pages_of au_trans]. apply in_or_app. left. exact Hx. Qed.
Lemma staged_accepts ps : ps <> [] -> (forall p, In p ps -> sound p) -> forall n, accepts (pages_of A) (sections (staged n ps)).
Proof.
  intros Hne. induction ps as [|p ps IH]; intros Hp n; [congruence|]. cbn [staged].
  assert (accepts (shown_of A) (element (u "p") (breaks br (p_stage p n)))) as Ha.
  { apply (shown_page T A); [apply page_parts|]. apply p_accepts, Hp. left. auto. }
  destruct ps as [|p' ps].
  - cbn [staged sections]. rewrite <- (app_nil_r (element _ _)). apply (ProofParas.tail_ok (shown_of A)); [exact Ha|exact shown_more|]. intros f Hf. constructor. exact Hf.
  - rewrite sections_cons by discriminate. apply (ProofParas.tail_ok (shown_of A)); [exact Ha|exact shown_more|]. intros f [<-|[]].
    eapply SufCons with (q' := 315%nat) (l := newline); [cbn [pages_of au_trans]; apply in_or_app; right; left; reflexivity|reflexivity|].
    eapply SufCons with (q' := 300%nat) (l := newline); [cbn [pages_of au_trans]; apply in_or_app; right; right; left; reflexivity|reflexivity|].
    apply IH; [discriminate|]. intros q Hq. apply Hp. right. exact Hq.
Qed.
Lemma staged_restores ps shelf : (forall p, In p ps -> sound p) -> forall n, incl (numbered T n (flat_map p_kept ps)) shelf ->
  restores T shelf (sections (staged n ps)) (sections (map (fun p => element (u "p") (p_body p br)) ps)).
Proof.
  intros Hp n Hi. apply rs_sections; auto. revert n Hi. induction ps as [|p ps IH]; intros n Hi; [constructor|]. cbn [staged map flat_map] in *. rewrite numbered_app in Hi. constructor.
  - apply rs_element; auto. apply p_back; [apply Hp; left; auto|]. intros x Hx. apply Hi, in_or_app. auto.
  - apply IH; [intros q Hq; apply Hp; right; auto|]. intros x Hx. apply Hi, in_or_app. auto.
Qed.
Lemma bodies_brs ps : (forall p, In p ps -> sound p) ->
  brs br fb (sections (map (fun p => element (u "p") (p_body p br)) ps)) (sections (map (fun p => element (u "p") (p_body p fb)) ps)).
Proof.
  induction ps as [|p ps IH]; intros Hp; [constructor|]. destruct ps as [|p' ps].
  - cbn [map sections]. rewrite <- (app_nil_r (element _ (_ br))), <- (app_nil_r (element _ (_ fb))). apply p_brs; [apply Hp; left; auto|constructor].
  - cbn [map]. rewrite (sections_cons (element _ (p_body p br))), (sections_cons (element _ (p_body p fb))) by discriminate. apply p_brs; [apply Hp; left; auto|].
    apply brs_char; [discriminate|]. apply brs_char; [discriminate|]. apply IH. intros q Hq. apply Hp. right. exact Hq.
Qed.
Lemma parse_paras fuel c src ps : (1 < fuel)%nat -> @cache_ok (own T) c -> t_sanitize T = None -> t_block_tags T = true -> (forall p, In p ps -> sound p) -> ps <> [] ->
  prepare T src = sections (map p_source ps) -> is_empty (trim src) = false ->
  exists s, parse W T fuel c src = Ret (sections (map (fun p => element (u "p") (p_body p fb)) ps)) s.
Proof.
  intros Hf Hc Hs Ht Hp Hne Hsrc Htr. unfold parse, parse_m. rewrite Htr, Hsrc, Ht. destruct fuel as [|n]; [lia|].
  destruct (paras_fold (S n) n ltac:(lia) ps [] [] [] (new_state c) Hp Hne Hc eq_refl) as (out & c1 & Hc1 & E1 & O1).
  assert (block W T (graf W T (S n)) (sections (map p_source ps)) (new_state c) = Ret (sections (staged 0 ps)) (puts T (flat_map p_kept ps) (set_cache c1 (new_state c)))) as E2.
  { unfold block. unfold splitM. rewrite split_sections.
    - cbn [of_opt]. rewrite bind_ret. unfold graf. change (mk_bl [] [] false [] [] [] None [] false) with (acc [] [] []). unfold bind. rewrite E1. unfold ret. f_equal.
      cbn [acc bl_ext bl_out is_empty]. unfold acc. cbn [bl_ext bl_out is_empty]. exact O1.
    - destruct ps; [congruence|discriminate].
    - intros x Hx. apply in_map_iff in Hx. destruct Hx as (p & <- & Hx). apply p_firm, Hp, Hx. }
  destruct (puts_own T (flat_map p_kept ps) (new_state c)) as (P1 & P2 & P3 & P4). rewrite P4 in E2. set (s1 := set_cache c1 (puts T (flat_map p_kept ps) (new_state c))) in *.
  assert (place_note_lists T (sections (staged 0 ps)) s1 = Ret (sections (staged 0 ps)) s1) as E3.
  { unfold place_note_lists, modify, bind. cbn beta. assert (ps_notes s1 = []) as -> by (unfold s1; cbn [ps_notes set_cache]; rewrite P3; reflexivity). cbv iota.
    apply no_match_replaceM. eapply never_ok; [apply staged_accepts; auto|apply page_parts]. }
  assert (ps_shelf s1 = numbered T 0 (flat_map p_kept ps)) as E4 by (unfold s1; cbn [ps_shelf set_cache]; rewrite puts_shelf; [reflexivity|intros k []]).
  assert (ps_borrowed s1 = false) as E5 by (unfold s1; cbn [ps_borrowed set_cache]; rewrite P2; reflexivity).
  set (sh := numbered T 0 (flat_map p_kept ps)) in *. pose proof (numbered_tokens T (flat_map p_kept ps) 0 : tokens T sh) as Hto. pose proof (numbered_nodup T (flat_map p_kept ps) 0 : NoDup (map fst sh)) as Hnd.
  pose proof (staged_restores ps sh Hp 0 (fun x H => H)) as R. set (x0 := sections (staged 0 ps)) in *. set (x1 := sections (map (fun p => element (u "p") (p_body p br)) ps)) in *.
  pose proof (rs_uid T uid_simple sh _ _ R) as U. pose proof (rs_pass T uid_simple sh Hto Hnd _ _ R) as Ep.
  assert (retrieve (S n) x0 s1 = Ret x1 s1) as E9.
  { unfold retrieve, bind, get. rewrite E4. assert (retrieve_pass sh x1 = x1) as Eq by (apply (pass_absent T uid_simple); auto).
    destruct n as [|f]; [lia|]. cbn [retrieve_loop]. rewrite Ep. destruct (seqb x1 x0) eqn:Es; [reflexivity|]. rewrite Eq, seqb_refl. reflexivity. }
  destruct (tags_absent T uid_simple _ U s1 Hc1 E5) as (c2 & Hc2 & E7). destruct (urls_absent W T uid_simple _ U (set_cache c2 s1) Hc2 E5) as (c3 & Hc3 & E8).
  exists (set_cache c3 (set_cache c2 s1)).
  unfold bind at 1. unfold bind at 1. rewrite E2, E3. unfold bind at 1. rewrite E9.
  rewrite replace_absent; [|pose proof (uid_ne _ uid_simple); destruct (t_uid T); [congruence|discriminate]|apply contains_more; exact U].
  unfold bind at 1. rewrite E7. unfold bind at 1. rewrite E8. unfold ret. f_equal. unfold finish. rewrite Hs. unfold replace_all, segs.
  erewrite brs_pattern; [|apply br_is|apply bodies_brs; auto]. apply sections_end. intros x Hx. apply in_map_iff in Hx. destruct Hx as (p & <- & Hx).
  unfold element. exists (u "<" ++ u "p" ++ u ">" ++ p_body p fb ++ u "</" ++ u "p"), 62. rewrite <- !app_assoc. split; [reflexivity|discriminate].
Qed.
End Pages.
