(** Documents of paragraphs with inline code. *)
From Verif Require Import Str Unicode Regex RegexParse RegexSnips RegexTheory RegexAuto RegexGroups Lib ModelBase ModelHtml ModelUrl
  ModelAttrs ModelInline ModelParser SpecRegex ProofRegex ProofCharref SpecParse ProofParse Logic ProofWalk ProofState SpecState ProofMemory ProofCache ProofLinks ProofDoc
  SpecPlain ProofPlain SpecNewlines ProofNewlines ProofParas ProofTags ProofSections ProofBlocks ProofStateEx SpecDoc ProofDocument SpecText ProofText ProofWeave ProofSpan ProofSpanRe ProofSpanText SpecSpans ProofSpanDoc ProofSpanPage
  SpecSigned ProofSigned ProofSignedDoc ProofSignedPage ProofSignedEnd ProofSignedTop ProofPages ProofSpecial SpecCode ProofCode ProofCodeDoc.
#[local] Arguments u : simpl never.

(** ** Reading *)
Lemma in_other c cs : ~ In c cs -> in_cls (other cs) c = true.
Proof.
  intros H. unfold in_cls, other. cbn [c_neg c_items]. destruct (existsb _ _) eqn:E; [|reflexivity]. exfalso. apply H. apply existsb_exists in E as (i & E1 & E2). apply in_map_iff in E1 as (d & <- & Hd). cbn [in_item] in E2.
  apply andb_prop in E2 as [E2 E3]. apply N.leb_le in E2, E3. assert (c = d) as -> by lia. exact Hd.
Qed.
Section Doc.
Variables (W : world) (T : textile).
Hypothesis uid_simple : simple_uid (t_uid T).
Hypothesis full : t_lite T = false.
Notation tok n := (fragment_token T n).
Notation br := (br_tag T).
Notation fb := (final_br T).
Notation fits := (fits T).
Notation follow := (follow T).
Lemma written_item f : fits f -> forall q rest, In q [0; 1; 8]%nat -> Suf written_code 20 rest -> Suf written_code q (fragment_text f ++ rest).
Proof.
  intros (_ & H10 & H13 & _ & _ & Hf) q rest Hq Hr. destruct f as [c|c]; cbn [fragment_text inside_of] in *.
  - change (u "@") with [64]. rewrite <- !app_assoc. cbn [app]. eapply SufCons with (q' := 30%nat) (l := ch 64); [|reflexivity|].
    { unfold written_code. cbn [au_trans]. apply in_or_app, or_intror, in_or_app. left. apply in_flat_map. exists q. split; [exact Hq|left; reflexivity]. }
    eapply loop_ok with (k := not_at); [unfold written_code; cbn [au_trans]; do 2 apply in_or_app, or_intror; apply in_or_app; left; left; reflexivity| |].
    { apply forallb_forall. intros x Hx. apply in_other. intros [<-|[<-|[<-|[]]]]; tauto. }
    cbn [app]. eapply SufCons with (q' := 20%nat) (l := ch 64); [unfold written_code; cbn [au_trans]; do 2 apply in_or_app, or_intror; apply in_or_app; left; right; left; reflexivity|reflexivity|exact Hr].
  - change (u "==") with [61; 61]. rewrite <- !app_assoc. cbn [app]. eapply SufCons with (q' := 31%nat) (l := ch 61); [|reflexivity|].
    { unfold written_code. cbn [au_trans]. apply in_or_app, or_intror, in_or_app. left. apply in_flat_map. exists q. split; [exact Hq|right; left; reflexivity]. }
    assert (forall tr, In tr [(31, ch 61, 32); (32, not_end, 32); (32, ch 61, 33); (33, ch 61, 20)]%nat -> In tr (au_trans written_code)) as Q by (intros tr Htr; unfold written_code; cbn [au_trans]; do 3 apply in_or_app, or_intror; exact Htr).
    eapply SufCons with (q' := 32%nat) (l := ch 61); [apply Q; cbn [In]; tauto|reflexivity|].
    eapply loop_ok with (k := not_end); [apply Q; cbn [In]; tauto| |].
    { apply forallb_forall. intros x Hx. apply in_other. intros [<-|[<-|[]]]; tauto. }
    cbn [app]. eapply SufCons with (q' := 33%nat) (l := ch 61); [apply Q; cbn [In]; tauto|reflexivity|].
    eapply SufCons with (q' := 20%nat) (l := ch 61); [apply Q; cbn [In]; tauto|reflexivity|exact Hr].
Qed.
Lemma tok_item i : forall q rest, In q [0; 1; 8]%nat -> Suf shelved_code 20 rest -> Suf shelved_code q (tok i ++ rest).
Proof.
  intros q rest Hq Hr. destruct uid_simple as (id & Eu & Hid). unfold fragment_token. rewrite Eu, <- !app_assoc. apply id_in in Hid.
  eapply (reads_ok _ 75%nat) with (n := 60%nat); [|discriminate|].
  2:{ intros x Hx. unfold shelved_code. cbn [au_trans]. apply in_or_app, or_intror, in_or_app. left. apply in_flat_map. exists q. split; [exact Hq|exact Hx]. }
  eapply loop_ok with (k := one_of id_chars); [unfold shelved_code; cbn [au_trans]; do 2 apply in_or_app, or_intror; apply in_or_app; left; left; reflexivity|exact Hid|].
  change (u ":") with [58]. cbn [app]. eapply SufCons with (q' := 76%nat) (l := one_of (u ":")); [unfold shelved_code; cbn [au_trans]; do 2 apply in_or_app, or_intror; apply in_or_app; left; right; left; reflexivity|reflexivity|].
  destruct (dec_digit i) as (c & d & -> & Hc & Hd). cbn [app]. eapply SufCons with (q' := 77%nat) (l := digit); [unfold shelved_code; cbn [au_trans]; do 2 apply in_or_app, or_intror; apply in_or_app; left; right; right; left; reflexivity|exact Hc|].
  eapply loop_ok with (k := digit); [unfold shelved_code; cbn [au_trans]; do 2 apply in_or_app, or_intror; apply in_or_app; left; right; right; right; left; reflexivity|exact Hd|].
  eapply (reads_ok _ 20%nat) with (n := 80%nat); [exact Hr|discriminate|]. unfold shelved_code. cbn [au_trans]. do 3 apply incl_app_mid. apply incl_refl.
Qed.
Lemma around_in A : A = written_code \/ A = shelved_code -> incl around_code (au_trans A) /\ incl (20 :: 21 :: au_final paragraph)%nat (au_final A) /\ au_start A = 0%nat.
Proof. intros [->| ->]; (split; [|split; [apply incl_refl|reflexivity]]); (unfold written_code, shelved_code; cbn [au_trans]; apply incl_here). Qed.
Lemma source_reads l : forall q, In q [0; 1; 8]%nat -> l <> [] -> follow l -> Suf written_code q (frag_text l).
Proof.
  destruct (around_in written_code) as (I1 & I2 & _); auto.
  induction l as [|[f t] l IH]; intros q Hq Hn Hl; [congruence|]. apply follow_cons in Hl as (Hf & _ & Hm & He & Hl). unfold frag_text. cbn [flat_map fst snd]. fold (frag_text l). rewrite <- app_assoc. apply written_item; auto.
  destruct l as [|p l].
  - apply (ProofParas.tail_ok after_code); [apply He; reflexivity|exact I1|]. intros g Hg. constructor. apply I2. exact Hg.
  - apply (ProofParas.tail_ok between_code); [apply Hm; discriminate|exact I1|]. intros g Hg. apply IH; auto; [|discriminate]. unfold between_code in Hg. cbn [au_final In] in *. tauto.
Qed.
Definition shape (a : str) (l : list (fragment * str)) : Prop := (l = [] /\ accepts paragraph a) \/ (l <> [] /\ accepts before_code a /\ follow l).
Lemma paragraph_in A a : A = written_code \/ A = shelved_code -> accepts paragraph a -> accepts A a.
Proof.
  intros HA H. destruct (around_in A HA) as (I1 & I2 & I3). unfold accepts. rewrite I3. rewrite <- (app_nil_r a). apply (ProofParas.tail_ok paragraph); [exact H| |].
  - intros x Hx. apply I1. unfold around_code. apply in_or_app. left. exact Hx.
  - intros g Hg. constructor. apply I2. right. right. exact Hg.
Qed.
Lemma source_accepts a l : shape a l -> accepts written_code (a ++ frag_text l).
Proof.
  intros [[-> H]|(Hn & Ha & Hl)]; [unfold frag_text; cbn [flat_map]; rewrite app_nil_r; apply paragraph_in; auto|].
  destruct (around_in written_code) as (I1 & _ & I3); auto. unfold accepts. rewrite I3. apply (ProofParas.tail_ok before_code); [exact Ha|exact I1|]. intros g Hg. apply source_reads; auto.
Qed.
Lemma shelved_reads l : forall n m q, In q [0; 1; 8]%nat -> l <> [] -> follow l -> Suf shelved_code q (tokened_text T n m l).
Proof.
  destruct (around_in shelved_code) as (I1 & I2 & _); auto.
  induction l as [|[f t] l IH]; intros n m q Hq Hn Hl; [congruence|]. apply follow_cons in Hl as (Hf & _ & Hm & He & Hl).
  assert (forall n' m', Suf shelved_code 20 (t ++ tokened_text T n' m' l)) as Q.
  { intros n' m'. destruct l as [|p l].
    - apply (ProofParas.tail_ok after_code); [apply He; reflexivity|exact I1|]. intros g Hg. constructor. apply I2. exact Hg.
    - apply (ProofParas.tail_ok between_code); [apply Hm; discriminate|exact I1|]. intros g Hg. apply IH; auto; [|discriminate]. unfold between_code in Hg. cbn [au_final In] in *. tauto. }
  destruct f; cbn [tokened_text]; apply tok_item; auto.
Qed.
Lemma stage_accepts a l n m : shape a l -> accepts shelved_code (a ++ tokened_text T n m l).
Proof.
  intros [[-> H]|(Hn & Ha & Hl)]; [cbn [tokened_text]; rewrite app_nil_r; apply paragraph_in; auto|].
  destruct (around_in shelved_code) as (I1 & _ & I3); auto. unfold accepts. rewrite I3. apply (ProofParas.tail_ok before_code); [exact Ha|exact I1|]. intros g Hg. apply shelved_reads; auto.
Qed.
Lemma shelved_quiet t : accepts shelved_code t -> quiet T t.
Proof.
  clear full.
  intros H. destruct (fam_tailed shelved_code t H) as [H1 H2]. 
  assert (forall r, In r shelved_re -> no_match r t) as Sm by (intros r Hr; eapply never_in; [exact shelved_small|exact H|exact Hr]).
  constructor.
  - intros r Hr. assert (In r (stage_rx false (t_noimage T))) as Hr' by (unfold stage_rx in *; destruct (t_lite T); [apply in_or_app; right|]; exact Hr). split; [|intros _]; (eapply never_rx; [apply shelved_stage| |exact Hr']; assumption).
  - intros r Hr. eapply never_rx; [exact shelved_glyph|exact H|exact Hr].
  - split; apply no_match_ch, Sm; cbn [In shelved_re]; tauto.
  - unfold needle. destruct uid_simple as (id & -> & _). destruct (contains _ t) eqn:E; auto. apply contains_split in E as (a & b & ->).
    assert (contains (u ":link" ++ 83 :: u "tartMarker:") ((a ++ u "textileRef:" ++ id) ++ (u ":link" ++ 83 :: u "tartMarker:") ++ b) = true) as F by apply contains_mid.
    rewrite (no_contains (u ":link") (ch 83) 83) in F; [discriminate| |reflexivity]. 
    assert ((a ++ u "textileRef:" ++ id) ++ (u ":link" ++ 83 :: u "tartMarker:") ++ b = a ++ ((u "textileRef:" ++ id ++ u ":") ++ u "linkStartMarker:") ++ b) as -> by (rewrite <- !app_assoc; reflexivity).
    apply Sm. cbn [In shelved_re]. tauto.
  - apply no_end_newline, Sm. cbn [In shelved_re]. tauto.
Qed.
(** ** The inline stages *)
Lemma shape_start a l : shape a l -> (a = [] \/ closes a \/ l = []) /\ ~ In 60 a /\ ~ In 61 a /\ ~ In 64 a /\ no_match uid_lead a /\ ~ In 38 a /\ ~ In 62 a /\ follow l.
Proof.
  intros [[-> H]|(Hn & Ha & Hl)].
  - split; [auto|]. assert (accepts after_code a \/ a = a) as _ by auto. 
    assert (forallb (never paragraph) [RCls (ch 60); RCls (ch 61); RCls (ch 64); uid_lead; RCls (ch 38); RCls (ch 62)] = true) as F by (vm_compute; reflexivity).
    assert (forall r, In r [RCls (ch 60); RCls (ch 61); RCls (ch 64); uid_lead; RCls (ch 38); RCls (ch 62)] -> no_match r a) as N by (intros r Hr; eapply never_in; eauto).
    repeat split; try (apply no_match_ch, N; cbn [In]; tauto). apply N. cbn [In]. tauto.
  - split; [destruct (ends_before a Ha); auto|]. destruct (around_pieces before_code a) as (A1 & A2 & A3 & A4 & A5 & A6); auto. tauto.
Qed.
Lemma graf_code fuel n a l s : (0 < fuel)%nat -> shape a l -> @cache_ok (own T) (ps_cache s) -> ps_borrowed s = false ->
  exists c, @cache_ok (own T) c /\ graf_n W T fuel (S n) (a ++ frag_text l) s = Ret (a ++ tokened_text T (ps_ref_index s) (ps_ref_index s + size (raws l)) l) (puts T (raws l ++ codes l) (set_cache c s)).
Proof.
  intros Hf H Hc Hb. set (t2 := a ++ tokened_text T (ps_ref_index s) (ps_ref_index s + size (raws l)) l).
  assert (quiet T t2) as Q by (apply shelved_quiet, stage_accepts, H). destruct (shape_start a l H) as (Ha & H60 & H61 & H64 & _ & _ & _ & Hl).
  assert (forall r, In r [SPECIAL_NOTEXTILE; SPECIAL_EQ; SPECIAL_CODE; SPECIAL_AT; SPECIAL_PRE] -> no_match (rx_re r) t2) as N.
  { intros r Hr. apply (q_inline T t2 Q). apply stage_in. right. right. left. split; [exact full|]. cbn [In] in *. tauto. }
  assert (no_textile T (a ++ frag_text l) s = Ret (fst (gather2 T (ps_ref_index s) a l) ++ rendered (u "@") (u "@") (snd (gather2 T (ps_ref_index s) a l))) (puts T (raws l) s) /\
    code T (fst (gather2 T (ps_ref_index s) a l) ++ rendered (u "@") (u "@") (snd (gather2 T (ps_ref_index s) a l))) (puts T (raws l) s) = Ret t2 (puts T (raws l ++ codes l) s)) as [E1 E2].
  { destruct Ha as [Ha|[Ha|Ha]].
    - destruct (special_steps T uid_simple l a s) as [E1 E2]; auto. split; [exact E1|]. apply E2. apply N. cbn [In]. tauto.
    - destruct (special_steps T uid_simple l a s) as [E1 E2]; auto. split; [exact E1|]. apply E2. apply N. cbn [In]. tauto.
    - subst l. cbn [gather2 fst snd raws codes app frag_text flat_map rendered] in *. unfold t2 in *. cbn [tokened_text] in *. change (frag_text []) with (@nil N). rewrite app_nil_r in *. change (puts T [] s) with s. split.
      + unfold no_textile, bind. rewrite !no_match_replaceM by (apply N; cbn [In]; tauto). reflexivity.
      + unfold code, bind. rewrite !no_match_replaceM by (apply N; cbn [In]; tauto). reflexivity. }
  destruct (puts_own T (raws l ++ codes l) s) as (P1 & P2 & _ & P4).
  destruct (graf_quiet W T (uid_simple_plain _ uid_simple) fuel n t2 Hf Q (puts T (raws l ++ codes l) s)) as (c & Hc2 & E).
  { rewrite P1. exact Hc. } { rewrite P2. exact Hb. }
  exists c. split; [exact Hc2|]. rewrite P4. etransitivity; [|exact E]. cbn [graf_n]. unfold graf_body. rewrite full.
  unfold bind at 1. rewrite E1. unfold bind at 1. rewrite E2. symmetry.
  assert (no_textile T t2 (puts T (raws l ++ codes l) s) = Ret t2 (puts T (raws l ++ codes l) s)) as E3 by (unfold no_textile, bind; rewrite !no_match_replaceM by (apply N; cbn [In]; tauto); reflexivity).
  assert (code T t2 (puts T (raws l ++ codes l) s) = Ret t2 (puts T (raws l ++ codes l) s)) as E4 by (unfold code, bind; rewrite !no_match_replaceM by (apply N; cbn [In]; tauto); reflexivity).
  unfold bind at 1. rewrite E3. unfold bind at 1. rewrite E4. reflexivity.
Qed.

(** ** The fragments come back *)
Definition starts_cut (w : str) : Prop := exists d r, w = d :: r /\ cutter d /\ d <> 98 /\ d <> 66 /\ d <> 114 /\ d <> 82.
Definition ends_cut (w : str) : Prop := exists v e, w = v ++ [e] /\ cutter e.
Lemma br_ends : exists w, br = 60 :: w ++ [62].
Proof. unfold br_tag. destruct (t_html T); [exists (u "br /")|exists (u "br")]; reflexivity. Qed.
Lemma starts_breaks t : accepts between_code t \/ accepts after_code t -> t = [] \/ starts_cut (breaks br t).
Proof.
  intros H. destruct (starts_after t H) as [->|(c & r & -> & Hc)]; [left; reflexivity|]. right. unfold breaks. cbn [flat_map]. destruct (N.eqb_spec c 10) as [->|H10].
  - destruct br_ends as (w & ->). eexists 60, _. split; [reflexivity|]. split; [split; reflexivity|]. repeat split; discriminate.
  - eexists c, _. split; [reflexivity|]. assert (forallb (fun d => forallb (fun x => negb (x =? d)) uid_all && forallb (fun x => negb (x =? d)) (u "0123456789:shelve") && negb (existsb (N.eqb d) (u "bBrR"))) (u " ,;!.?" ++ [10]) = true) as F by (vm_compute; reflexivity).
    rewrite forallb_forall in F. specialize (F c Hc). cbv beta in F. apply andb_prop in F as [F F3]. apply andb_prop in F as [F1 F2]. split; [split; assumption|]. apply negb_true_iff in F3.
    repeat split; intros ->; discriminate F3.
Qed.
Lemma ends_breaks t : closes t -> ends_cut (breaks br t).
Proof.
  intros (a & d & -> & [->| ->]); rewrite breaks_app.
  - exists (breaks br a), 32. split; [reflexivity|]. split; reflexivity.
  - destruct br_ends as (w & E). exists (breaks br a ++ 60 :: w), 62. split; [|split; reflexivity]. unfold breaks at 2. cbn [flat_map N.eqb]. change (10 =? 10) with true. rewrite E, app_nil_r, <- app_assoc. reflexivity.
Qed.
Lemma text_free A t : A = before_code \/ A = between_code \/ A = after_code -> accepts A t -> uid_free T (breaks br t).
Proof.
  intros HA H. apply uid_breaks; [exact uid_simple|left; apply br_is|]. apply lead_absent; [exact uid_simple|]. eapply around_pieces; eauto.
Qed.
Lemma free_cut d a b : cutter d -> uid_free T (a ++ d :: b) -> uid_free T a /\ uid_free T b.
Proof. intros Hd H. unfold uid_free in *. rewrite uid_cut_at in H by auto. apply orb_false_iff in H. exact H. Qed.
Section Shelf.
Variable shelf : list (str * str).
Notation restores := (restores T shelf).
Lemma rs_first w x y : ends_cut w -> uid_free T w -> restores x y -> restores (w ++ x) (w ++ y).
Proof. intros (v & e & -> & He) Hw H. rewrite <- !app_assoc. cbn [app]. apply (free_cut e v []) in Hw as [Hv _]; auto. apply rs_cut; auto. apply rs_plain. exact Hv. Qed.
Lemma rs_hedge w x y x' y' : starts_cut w -> ends_cut w -> uid_free T w -> restores x y -> restores x' y' -> restores (x ++ w ++ x') (y ++ w ++ y').
Proof.
  intros (d & r & -> & Hd & _) (v & e & E & He) Hw H H'. destruct v as [|d' v].
  - injection E as <- ->. cbn [app]. apply rs_cut; auto.
  - injection E as <- ->. cbn [app]. rewrite <- !app_assoc. cbn [app]. apply rs_cut; auto. apply (free_cut d []) in Hw as [_ Hw]; auto. apply (free_cut e v []) in Hw as [Hv _]; auto. apply rs_cut; auto. apply rs_plain. exact Hv.
Qed.
Lemma rs_last w x y : w = [] \/ starts_cut w -> uid_free T w -> restores x y -> restores (x ++ w) (y ++ w).
Proof.
  intros [->|(d & r & -> & Hd & _)] Hw H; [rewrite !app_nil_r; exact H|]. apply (free_cut d []) in Hw as [_ Hw]; auto. apply rs_cut; auto. apply rs_plain. exact Hw.
Qed.
Lemma code_free c : uid_free T c -> uid_free T (code_of c).
Proof.
  intros H. unfold code_of. change (u "<code>" ++ ?z) with ((60 :: u "code") ++ 62 :: z). change (u "</code>") with (60 :: u "/code>"). unfold uid_free. rewrite uid_cut_at by (auto using cutter_62). rewrite uid_cut_at by (auto using cutter_60).
  assert (contains (t_uid T) (60 :: u "code") = false) as -> by (apply uid_no_colon; auto; vm_compute; intuition discriminate).
  assert (contains (t_uid T) (u "/code>") = false) as -> by (apply uid_no_colon; auto; vm_compute; intuition discriminate).
  fold (esc c). rewrite esc_entities, uid_entities by auto. reflexivity.
Qed.
Lemma shelf_free f : fits f -> uid_free T (shelf_of f).
Proof. intros (_ & _ & _ & H & _). destruct f; cbn [shelf_of inside_of] in *; [apply code_free|]; exact H. Qed.
Definition body_of (x : str) (l : list (fragment * str)) : str := flat_map (fun y => shelf_of (fst y) ++ breaks x (snd y)) l.
Lemma back l : forall n m, follow l -> incl (numbered T n (raws l)) shelf -> incl (numbered T m (codes l)) shelf -> restores (breaks br (tokened_text T n m l)) (body_of br l).
Proof.
  assert (forall i, breaks br (tok i) = tok i) as B by (intros i; apply breaks_one_line, (tok_without T uid_simple); reflexivity).
  induction l as [|[f t] l IH]; intros n m Hl Hn Hm; [apply rs_nil; auto|]. pose proof (follow_cons T f t l Hl) as (Hf & Ht & Hb & He & Hl').
  assert (forall i n' m', In (tok i, shelf_of f) shelf -> restores (breaks br (tokened_text T n' m' l)) (body_of br l) -> restores (breaks br (tok i ++ t ++ tokened_text T n' m' l)) (shelf_of f ++ breaks br t ++ body_of br l)) as Q.
  { intros i n' m' Hi R. rewrite !breaks_app, B. pose proof (shelf_free f Hf) as Hs.
    assert (uid_free T (breaks br t)) as Hu by (destruct Ht as [Ht|Ht]; [eapply (text_free between_code)|eapply (text_free after_code)]; auto).
    destruct l as [|p l].
    - cbn [tokened_text]. change (breaks br []) with (@nil N). change (body_of br []) with (@nil N). rewrite !app_nil_r. apply rs_last; auto; [destruct (starts_breaks t Ht) as [->|]; auto|]. apply rs_tok; auto.
    - assert (accepts between_code t) as Ht' by (apply Hb; discriminate). apply rs_hedge; auto; [|apply ends_breaks, ends_between, Ht'|apply rs_tok; auto].
      destruct (starts_breaks t Ht) as [->|]; auto. apply ends_between in Ht' as (v & d & F & _). destruct v; discriminate. }
  destruct f as [c|c]; cbn [tokened_text raws codes] in *; unfold body_of; cbn [flat_map fst snd]; rewrite <- app_assoc; apply Q.
  - apply Hm. left. reflexivity.
  - apply IH; auto. intros z Hz. apply Hm. right. exact Hz.
  - apply Hn. left. reflexivity.
  - apply IH; auto. intros z Hz. apply Hn. right. exact Hz.
Qed.
Lemma back_all a l n : shape a l -> incl (numbered T n (raws l ++ codes l)) shelf -> restores (breaks br (a ++ tokened_text T n (n + size (raws l)) l)) (breaks br a ++ body_of br l).
Proof.
  intros H Hi. rewrite numbered_app in Hi. rewrite breaks_app. destruct (shape_start a l H) as (Ha & _ & _ & _ & Hu & _ & _ & Hl).
  assert (uid_free T (breaks br a)) as Hfree by (apply uid_breaks; [exact uid_simple|left; apply br_is|]; apply lead_absent; [exact uid_simple|exact Hu]).
  assert (restores (breaks br (tokened_text T n (n + size (raws l)) l)) (body_of br l)) as R by (apply back; auto; intros z Hz; apply Hi, in_or_app; auto).
  destruct Ha as [->|[Ha| ->]].
  - exact R.
  - apply rs_first; auto. apply ends_breaks, Ha.
  - cbn [tokened_text]. change (breaks br []) with (@nil N). change (body_of br []) with (@nil N). rewrite !app_nil_r. apply rs_plain. exact Hfree.
Qed.
End Shelf.

(** ** The end *)
Lemma raw_brs2 t a b d r : no_br t -> brs br fb a b -> a = d :: r -> d <> 98 -> d <> 66 -> d <> 114 -> d <> 82 -> brs br fb (t ++ a) (t ++ b).
Proof.
  intros Ht Hab -> H1 H2 H3 H4. induction t as [|c t IH]; [exact Hab|]. cbn [app]. assert (brs br fb (t ++ d :: r) (t ++ b)) as IH'.
  { apply IH. intros a' x y b' -> . apply (Ht (c :: a') x y b'). reflexivity. }
  destruct (N.eqb_spec c 60) as [->|]; [|apply brs_char; auto]. apply brs_other; auto.
  destruct t as [|x t]; [destruct r as [|z r]; cbn [app not_br]; intuition congruence|].
  destruct t as [|y t]; [cbn [app not_br]; intuition congruence|].
  cbn [app not_br]. apply (Ht [] x y t). reflexivity.
Qed.
Lemma parts_brs l r r' : follow l -> brs br fb (60 :: r) (60 :: r') ->
  exists x q q', body_of br l ++ 60 :: r = x :: q /\ body_of fb l ++ 60 :: r' = x :: q' /\ x <> 10 /\ brs br fb (x :: q) (x :: q') /\ (l = [] -> x = 60).
Proof.
  intros Hl Hr. induction l as [|[f t] l IH]; [exists 60, r, r'; repeat split; auto; discriminate|].
  pose proof (follow_cons T f t l Hl) as (Hf & Ht & Hb & He & Hl'). destruct (IH Hl') as (x & q & q' & E1 & E2 & H10 & Hxq & Hx).
  assert (~ In 60 t) as H60 by (apply (text_60 t); auto).
  pose proof (breaks_brs br fb x q q' t H60 H10 (br_is T) Hxq) as R.
  assert (exists d z, breaks br t ++ x :: q = d :: z /\ d <> 98 /\ d <> 66 /\ d <> 114 /\ d <> 82) as (d & z & Ed & Hd).
  { destruct (starts_breaks t Ht) as [->|(d & z & E & _ & Hd)].
    - destruct l as [|p l]; [|assert (accepts between_code []) as F by (apply Hb; discriminate); apply ends_between in F as (v & d & F & _); destruct v; discriminate].
      rewrite (Hx eq_refl). eexists 60, _. split; [reflexivity|]. repeat split; discriminate.
    - rewrite E. eexists d, _. split; [reflexivity|exact Hd]. }
  unfold body_of. cbn [flat_map fst snd]. fold (body_of br l) (body_of fb l). rewrite <- !app_assoc, E1, E2. destruct f as [c|c]; cbn [shelf_of].
  - eexists 60, _, _. split; [unfold code_of; reflexivity|]. split; [unfold code_of; reflexivity|]. split; [discriminate|]. split; [|congruence].
    pose proof (brs_element T (u "code") (esc c) (breaks br t ++ x :: q) (breaks fb t ++ x :: q') ltac:(right; left; reflexivity)) as K.
    apply K; [|exact R]. intros v w Hvw. apply brs_app; auto. apply esc_60.
  - destruct Hf as (Hn & Hc10 & _ & _ & _ & _ & Hbr). cbn [inside_of] in *. destruct c as [|c0 c]; [congruence|]. eexists c0, _, _. split; [reflexivity|]. split; [reflexivity|]. split; [intros ->; apply Hc10; left; reflexivity|]. split; [|congruence].
    destruct Hd as (D1 & D2 & D3 & D4). exact (raw_brs2 (c0 :: c) _ _ d z Hbr R Ed D1 D2 D3 D4).
Qed.
Lemma body_brs a l v w : shape a l -> brs br fb v w -> brs br fb (element (u "p") (breaks br a ++ body_of br l) ++ v) (element (u "p") (breaks fb a ++ body_of fb l) ++ w).
Proof.
  intros H Hvw. destruct (shape_start a l H) as (_ & H60 & _ & _ & _ & _ & _ & Hl). unfold element. rewrite <- !app_assoc.
  change (u "<" ++ u "p" ++ u ">" ++ ?z) with (60 :: [112; 62] ++ z). change (u "</" ++ u "p" ++ u ">" ++ ?z) with (60 :: [47; 112; 62] ++ z).
  assert (brs br fb (60 :: [47; 112; 62] ++ v) (60 :: [47; 112; 62] ++ w)) as R.
  { apply brs_other; [cbn [app not_br]; intuition discriminate|]. apply brs_app; auto. cbn [In]. intuition discriminate. }
  destruct (parts_brs l _ _ Hl R) as (x & q & q' & E1 & E2 & H10 & Hxq & _). rewrite E1, E2. apply brs_other; [cbn [app not_br]; intuition discriminate|]. apply brs_app; [cbn [In]; intuition discriminate|].
  apply breaks_brs; auto. apply br_is.
Qed.

(** ** Sound paragraphs *)
Definition para_of (a : str) (l : list (fragment * str)) : para :=
  mk_para (a ++ frag_text l) (fun n => a ++ tokened_text T n (n + size (raws l)) l) (raws l ++ codes l) (fun x => breaks x a ++ body_of x l).
Lemma cutter_64 : cutter 64. Proof. split; reflexivity. Qed.
Lemma cutter_61 : cutter 61. Proof. split; reflexivity. Qed.
Lemma source_free a l : shape a l -> uid_free T (a ++ frag_text l).
Proof.
  intros H. destruct (shape_start a l H) as (_ & _ & _ & _ & Hu & _ & _ & Hl). apply lead_absent with (uid := t_uid T) in Hu; auto. change (uid_free T a) in Hu. clear H. revert a Hu Hl.
  assert (forall d x y, cutter d -> uid_free T x -> uid_free T y -> uid_free T (x ++ d :: y)) as J by (intros d x y Hd Hx Hy; unfold uid_free in *; rewrite uid_cut_at, Hx, Hy by auto; reflexivity).
  induction l as [|[f t] l IH]; intros a Hu Hl; [unfold frag_text; cbn [flat_map]; rewrite app_nil_r; exact Hu|].
  apply follow_cons in Hl as (Hf & Ht & _ & _ & Hl). destruct Hf as (_ & _ & _ & Hf & _). unfold frag_text. cbn [flat_map fst snd]. fold (frag_text l).
  assert (uid_free T (t ++ frag_text l)) as R. { apply IH; auto. apply lead_absent; [exact uid_simple|]. destruct Ht as [Ht|Ht]; [eapply (around_pieces between_code)|eapply (around_pieces after_code)]; eauto. }
  pose proof cutter_64. pose proof cutter_61. assert (uid_free T []) as R0 by (apply uid_no_colon; auto).
  destruct f as [c|c]; cbn [fragment_text inside_of] in *; [change (u "@") with [64]|change (u "==") with [61; 61]]; rewrite <- !app_assoc; cbn [app]; apply J; auto.
  change (61 :: c ++ 61 :: 61 :: t ++ frag_text l) with ([] ++ 61 :: c ++ 61 :: 61 :: t ++ frag_text l). apply J; auto. apply J; auto. change (61 :: t ++ frag_text l) with ([] ++ 61 :: t ++ frag_text l). apply J; auto.
Qed.
Lemma para_sound a l : shape a l -> sound W T shelved_code (para_of a l).
Proof.
  intros H. pose proof (source_accepts a l H) as HA.
  assert (forall r, In r source_rx -> no_match (rx_re r) (a ++ frag_text l)) as R by (intros r Hr; eapply never_rx; [exact written_rx|exact HA|exact Hr]).
  assert (forall r, In r source_small -> no_match r (a ++ frag_text l)) as R2 by (intros r Hr; eapply never_in; [exact written_small|exact HA|exact Hr]).
  constructor; cbn [para_of p_source p_stage p_kept p_body].
  - apply firm_of; apply R2; cbn [In source_small]; tauto.
  - apply source_free; auto.
  - rewrite full. apply R. cbn [In source_rx]. tauto.
  - apply R. cbn [In source_rx]. tauto.
  - apply R. cbn [In source_rx]. tauto.
  - destruct (a ++ frag_text l) as [|c r] eqn:E.
    { exfalso. inversion HA as [q Hq E1 E2|]; subst. vm_compute in Hq. intuition discriminate. }
    exists c, r. split; [reflexivity|]. pose proof (no_start_cls space_cls c r) as F. rewrite <- F; [|apply R2; cbn [In source_small]; tauto].
    unfold in_cls, space_cls. cbn [c_neg c_items existsb in_item has_prop]. destruct (is_ws c); reflexivity.
  - intros fuel n s Hf Hc Hb. apply graf_code; auto.
  - intros n. apply stage_accepts; auto.
  - intros shelf n Hi. apply back_all; auto.
  - intros v w Hvw. apply body_brs; auto.
Qed.
End Doc.
