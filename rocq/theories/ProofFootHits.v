(** The references of footnotes in a text. *)
From Verif Require Import Str Unicode Regex RegexParse RegexSnips RegexTheory RegexAuto Lib ModelBase ModelHtml ModelInline ModelParser ProofParse ProofTags ProofSpecial ProofDoc ProofLinked ProofImaged ProofListDoc SpecImages SpecPlain SpecText SpecLists SpecFootnotes.
#[local] Arguments u : simpl never.
Definition numeral : cls := mk_cls false [CProp false PN].
Definition space_c : cls := mk_cls false [CProp false PSpace].
Definition solid_c : cls := mk_cls false [CProp true PSpace].
Definition optional (c : cls) : re := RAlt (RCls c) REps.
Lemma foot_shape : rx_re FOOTNOTE_RE = RSeq (RBack solid_c) (RSeq (RCls (one 91)) (RSeq (RGroup 1 (RSeq (RCls numeral) (RStar true (RCls numeral))))
  (RSeq (RGroup 2 (optional (one 33))) (RSeq (RCls (one 93)) (RGroup 3 (optional space_c)))))).
Proof. reflexivity. Qed.
Definition bang (plain : bool) : str := if plain then [33] else [].
Lemma digits_numeral : forallb (in_cls numeral) (u "0123456789") = true.
Proof. vm_compute. reflexivity. Qed.
Lemma digit_in c : 48 <= c <= 57 -> In c (u "0123456789").
Proof. intros H. change (u "0123456789") with [48; 49; 50; 51; 52; 53; 54; 55; 56; 57]. cbn [In]. lia. Qed.
Lemma number_numeral n : (forall c, In c n -> 48 <= c <= 57) -> forallb (in_cls numeral) n = true.
Proof. intros H. apply forallb_forall. intros c Hc. pose proof digits_numeral as D. rewrite forallb_forall in D. apply D, digit_in, H, Hc. Qed.
Lemma numeral_stops : in_cls numeral 33 = false /\ in_cls numeral 93 = false /\ in_cls numeral 46 = false /\ in_cls numeral 94 = false.
Proof. vm_compute. auto. Qed.
Definition eaten (rest : str) : str := match rest with c :: _ => if in_cls space_c c then [c] else [] | [] => [] end.
Definition left_over (rest : str) : str := match rest with c :: r => if in_cls space_c c then r else rest | [] => [] end.
Lemma eaten_left rest : rest = eaten rest ++ left_over rest.
Proof. destruct rest as [|c r]; [reflexivity|]. cbn [eaten left_over]. destruct (in_cls space_c c); reflexivity. Qed.
Lemma optional_take c k before x rest cs y : in_cls c x = true -> k (mk_mst (x :: before) rest cs) = Some y -> m (optional c) (mk_mst before (x :: rest) cs) k = Some y.
Proof. intros H E. unfold optional. rewrite m_alt, m_cls, H, E. reflexivity. Qed.
Lemma optional_skip c k before rest cs : match rest with [] => True | x :: _ => in_cls c x = false end -> m (optional c) (mk_mst before rest cs) k = k (mk_mst before rest cs).
Proof. intros H. unfold optional. rewrite m_alt. destruct rest as [|x r]; [rewrite m_cls_nil|rewrite m_cls, H]; rewrite m_eps; reflexivity. Qed.
Lemma foot_hit b bs n plain rest : in_cls solid_c b = true -> footnote_number n ->
  exists s, match_at (rx_re FOOTNOTE_RE) (b :: bs) (91 :: n ++ bang plain ++ 93 :: rest) = Some s /\ m_after s = left_over rest /\
    cap_text 1 (m_caps s) = Some n /\ cap_text 2 (m_caps s) = Some (bang plain) /\ cap_text 3 (m_caps s) = Some (eaten rest).
Proof.
  intros Hb [Hn Hd]. pose proof (number_numeral n Hd) as Hnum. destruct numeral_stops as (S1 & S2 & _). destruct n as [|d n]; [congruence|]. cbn [forallb] in Hnum. apply andb_prop in Hnum as [Hd0 Hnum].
  set (A1 := 93 :: rest). set (A2 := bang plain ++ A1). set (A3 := (d :: n) ++ A2).
  exists (mk_mst (rev (eaten rest) ++ 93 :: rev (bang plain) ++ rev n ++ d :: 91 :: b :: bs) (left_over rest) [(3%nat, (rest, left_over rest)); (2%nat, (A2, A1)); (1%nat, (A3, A2))]).
  split; [|split; [reflexivity|]].
  - unfold match_at. rewrite foot_shape, m_seq, m_back, Hb, m_seq, m_cls, in_one. cbn [N.eqb Pos.eqb]. rewrite m_seq, m_group, m_seq. unfold A3. cbn [app]. rewrite m_cls, Hd0.
    apply m_star_greedy; [exact Hnum|unfold A2; destruct plain; [exact S1|exact S2]|]. cbn [m_before m_after m_caps]. rewrite m_seq, m_group. unfold A2 at 1.
    assert (K : forall cs B2, m (RSeq (RCls (one 93)) (RGroup 3 (optional space_c))) (mk_mst B2 A1 cs) Some = Some (mk_mst (rev (eaten rest) ++ 93 :: B2) (left_over rest) ((3%nat, (rest, left_over rest)) :: cs))).
    { intros cs B2. unfold A1. rewrite m_seq, m_cls, in_one. cbn [N.eqb Pos.eqb]. rewrite m_group. destruct rest as [|x r]; [rewrite optional_skip by exact I; reflexivity|].
      cbn [eaten left_over]. destruct (in_cls space_c x) eqn:Ex; [apply optional_take; [exact Ex|reflexivity]|]. rewrite optional_skip by exact Ex. reflexivity. }
    destruct plain; cbn [bang app rev].
    + apply optional_take; [rewrite in_one; reflexivity|]. cbn [m_before m_after m_caps]. rewrite K. reflexivity.
    + rewrite optional_skip by (unfold A1; rewrite in_one; reflexivity). cbn [m_before m_after m_caps]. rewrite K. reflexivity.
  - unfold cap_text. cbn [m_caps find_cap Nat.eqb option_map]. repeat split; f_equal.
    + unfold A3. apply cap_str_app. + unfold A2. apply cap_str_app. + rewrite (eaten_left rest) at 1. apply cap_str_app.
Qed.
Lemma foot_miss before c rest : c <> 91 -> match_at (rx_re FOOTNOTE_RE) before (c :: rest) = None.
Proof.
  intros H. unfold match_at. rewrite foot_shape, m_seq. destruct before as [|b bs]; [apply m_back_nil|]. rewrite m_back. destruct (in_cls solid_c b); [|reflexivity].
  rewrite m_seq, m_cls, in_one. destruct (N.eqb_spec c 91); [congruence|reflexivity].
Qed.
Lemma foot_nil before : match_at (rx_re FOOTNOTE_RE) before [] = None.
Proof.
  unfold match_at. rewrite foot_shape, m_seq. destruct before as [|b bs]; [apply m_back_nil|]. rewrite m_back. destruct (in_cls solid_c b); reflexivity.
Qed.
Lemma foot_lits w : ~ In 91 w -> forall before rest last, exists last', scan (rx_re FOOTNOTE_RE) before (w ++ rest) O last = map Lit w ++ scan (rx_re FOOTNOTE_RE) (rev w ++ before) rest O last'.
Proof.
  induction w as [|c w IH]; intros H before rest last; [exists last; reflexivity|]. cbn [app map rev]. rewrite scan_cons, foot_miss by (intros ->; apply H; left; reflexivity).
  destruct (IH ltac:(intros F; apply H; right; exact F) (c :: before) rest false) as (l' & E). exists l'. rewrite E, <- app_assoc. reflexivity.
Qed.
Lemma foot_end before last : scan (rx_re FOOTNOTE_RE) before [] O last = [].
Proof. rewrite scan_nil. destruct last; [reflexivity|]. rewrite foot_nil. reflexivity. Qed.

(** ** The replacement *)
Section Replaced.
Variable T : textile.
Notation prefix := (t_link_prefix T).
Hypothesis prefix_fine : prefix_ok prefix.
Definition at_table (c : SpecFootnotes.table) (s : pstate) : Prop := ps_footnotes s = map (fun e => (fst e, name prefix (snd e))) (fst c) /\ ps_link_index s = snd c.
Definition keeps_rest (s s' : pstate) : Prop := ps_cache s' = ps_cache s /\ ps_borrowed s' = ps_borrowed s /\ ps_notes s' = ps_notes s /\ ps_shelf s' = ps_shelf s.
Lemma keeps_refl s : keeps_rest s s.
Proof. repeat split. Qed.
Lemma keeps_trans s s1 s2 : keeps_rest s s1 -> keeps_rest s1 s2 -> keeps_rest s s2.
Proof. intros (A1 & A2 & A3 & A4) (B1 & B2 & B3 & B4). repeat split; congruence. Qed.
Lemma known_assoc n l : assoc n (map (fun e => (fst e, name prefix (snd e))) l) = option_map (name prefix) (known n l).
Proof. induction l as [|[k i] l IH]; [reflexivity|]. cbn [map assoc known fst snd]. destruct (seqb k n); [reflexivity|exact IH]. Qed.
Lemma insert_new {A} n (v : A) l : assoc n l = None -> im_insert n v l = l ++ [(n, v)].
Proof. induction l as [|[k w] l IH]; intros H; [reflexivity|]. cbn [assoc im_insert app] in *. destruct (seqb k n); [discriminate|]. rewrite IH by exact H. reflexivity. Qed.
Lemma assoc_new {A} n (v : A) l : assoc n l = None -> assoc n (l ++ [(n, v)]) = Some v.
Proof. induction l as [|[k w] l IH]; intros H; cbn [assoc app] in *; [rewrite seqb_refl; reflexivity|]. destruct (seqb k n); [discriminate|auto]. Qed.
Lemma inert_ok : forallb (fun c => match encode_char false true c with [d] => (d =? c) && negb (c =? 34) | _ => false end) (u "abcdefghijklmnopqrstuvwxyzABCDEFGHIJKLMNOPQRSTUVWXYZ0123456789-#") = true.
Proof. vm_compute. reflexivity. Qed.
Definition plain_chars : str := u "abcdefghijklmnopqrstuvwxyzABCDEFGHIJKLMNOPQRSTUVWXYZ0123456789-".
Lemma dec_chars i c : In c (dec i) -> In c plain_chars.
Proof.
  intros H. assert (forallb (fun x => existsb (N.eqb x) plain_chars) (u "0123456789") = true) as P by (vm_compute; reflexivity). rewrite forallb_forall in P.
  assert (In c (u "0123456789")) as Hc by (pose proof (dec_digits i) as D; rewrite Forall_forall in D; apply digit_in, D, H). specialize (P c Hc). apply existsb_exists in P as (x & Hx & E). apply N.eqb_eq in E. subst. exact Hx.
Qed.
Lemma name_chars i c : In c (name prefix i) -> In c plain_chars.
Proof. unfold name. intros H. apply in_app_or in H as [H|H]; [apply prefix_fine, H|eapply dec_chars; exact H]. Qed.
Lemma inert_plain c : In c plain_chars \/ c = 35 -> inert_char c.
Proof.
  intros H. apply (inert_list _ inert_ok). change (u "abcdefghijklmnopqrstuvwxyzABCDEFGHIJKLMNOPQRSTUVWXYZ0123456789-#") with (plain_chars ++ [35]). apply in_or_app. destruct H as [H| ->]; [left; exact H|right; left; reflexivity].
Qed.
Lemma word_plain w : forallb (fun x => existsb (N.eqb x) plain_chars) w = true -> forall c, In c w -> In c plain_chars.
Proof. intros H c Hc. rewrite forallb_forall in H. apply H in Hc. apply existsb_exists in Hc as (x & Hx & E). apply N.eqb_eq in E. subst. exact Hx. Qed.
Lemma fn_plain w i c : In w [u "fn"; u "fnrev"] -> In c (w ++ name prefix i) -> In c plain_chars.
Proof.
  intros Hw H. apply in_app_or in H as [H|H]; [|eapply name_chars; exact H]. revert c H. apply word_plain. destruct Hw as [<-|[<-|[]]]; vm_compute; reflexivity.
Qed.
Lemma gen_link w i n : In w [u "fn"; u "fnrev"] -> generate_tag (u "a") (Some n) [(u "href", 35 :: w ++ name prefix i)] = link_to (w ++ name prefix i) n.
Proof.
  intros Hw. rewrite gen_a.
  - unfold a_of, link_to. change (u "<a href=""#") with (u "<a href=""" ++ [35]). change (35 :: w ++ name prefix i) with ([35] ++ w ++ name prefix i). rewrite <- !app_assoc. reflexivity.
  - intros c [<-|H]; apply inert_plain; [right; reflexivity|left; eapply fn_plain; eauto].
Qed.
Lemma gen_sup x atts : (forall a, In a atts -> forallb is_valid_attribute_char (fst a) = true /\ forall c, In c (snd a) -> inert_char c) ->
  generate_tag (u "sup") (Some x) atts = u "<sup" ++ flat_map (fun a => attr_text (fst a) (snd a)) atts ++ u ">" ++ x ++ u "</sup>".
Proof.
  intros H. change (generate_tag (u "sup") (Some x) atts) with (((u "<" ++ u "sup") ++ flat_map attr_str (filter (fun a => forallb is_valid_attribute_char (fst a)) atts)) ++ u ">" ++ x ++ u "</" ++ u "sup" ++ u ">").
  rewrite attrs_text by exact H. change (u "<sup") with (u "<" ++ u "sup"). change (u "</sup>") with (u "</" ++ u "sup" ++ u ">"). rewrite <- !app_assoc. reflexivity.
Qed.
Lemma class_ok : forallb is_valid_attribute_char (u "class") = true /\ (forall c, In c (u "footnote") -> inert_char c).
Proof. split; [vm_compute; reflexivity|]. intros c H. apply inert_plain. left. revert c H. apply word_plain. vm_compute. reflexivity. Qed.
Definition marked (n : str) (plain : bool) (i : N) : str := if plain then n else link_to (u "fn" ++ name prefix i) n.
Lemma sup_known x : generate_tag (u "sup") (Some x) [(u "class", u "footnote")] = u "<sup class=""footnote"">" ++ x ++ u "</sup>".
Proof.
  rewrite gen_sup by (intros a [<-|[]]; exact class_ok). cbn [flat_map fst snd]. unfold attr_text. rewrite app_nil_r.
  change (u "<sup class=""footnote"">") with (u "<sup" ++ (u " " ++ u "class" ++ u "=""" ++ u "footnote" ++ u """") ++ u ">"). rewrite <- !app_assoc. reflexivity.
Qed.
Lemma sup_new x i : generate_tag (u "sup") (Some x) [(u "class", u "footnote"); (u "id", u "fnrev" ++ name prefix i)] = u "<sup class=""footnote"" id=""fnrev" ++ name prefix i ++ u """>" ++ x ++ u "</sup>".
Proof.
  rewrite gen_sup.
  - cbn [flat_map fst snd]. unfold attr_text. rewrite app_nil_r.
    change (u "<sup class=""footnote"" id=""fnrev") with (u "<sup" ++ (u " " ++ u "class" ++ u "=""" ++ u "footnote" ++ u """") ++ (u " " ++ u "id" ++ u "=""" ++ u "fnrev")). change (u """>") with (u """" ++ u ">"). rewrite <- !app_assoc. reflexivity.
  - intros a [<-|[<-|[]]]; [exact class_ok|]. cbn [fst snd]. split; [vm_compute; reflexivity|]. intros c H. apply inert_plain. left. eapply (fn_plain (u "fnrev")); [right; left; reflexivity|exact H].
Qed.
Lemma footnote_shown h n plain sp c s : cap_text 1 (h_caps h) = Some n -> cap_text 2 (h_caps h) = Some (bang plain) -> cap_text 3 (h_caps h) = Some sp -> at_table c s ->
  exists s', f_footnote_id T h s = Ret (fst (reference_html prefix (n, plain, sp) c)) s' /\ at_table (snd (reference_html prefix (n, plain, sp) c)) s' /\ keeps_rest s s'.
Proof.
  intros C1 C2 C3 [F L]. unfold f_footnote_id, capx, cap_or, cap_opt. rewrite C1, C2, C3. cbn [of_opt]. rewrite bind_ret. unfold bind at 1, get. cbv beta iota. unfold has_key. rewrite F, known_assoc.
  assert (Em : forall i, generate_tag (u "a") (Some n) [(u "href", u "#fn" ++ name prefix i)] = link_to (u "fn" ++ name prefix i) n) by (intros i; apply (gen_link (u "fn") i n); left; reflexivity).
  unfold reference_html. destruct (known n (fst c)) as [i|] eqn:Ek; cbn [option_map].
  - exists s. split; [|repeat split; auto]. rewrite bind_ret. unfold bind at 1. cbv beta iota. rewrite F, known_assoc, Ek. cbn [option_map of_opt]. rewrite bind_ret. cbv zeta. rewrite bind_ret. unfold ret. cbn [fst].
    f_equal. rewrite Em. destruct plain; [change (seqb (bang true) (u "!")) with true|change (seqb (bang false) (u "!")) with false]; cbv iota; rewrite sup_known; rewrite <- !app_assoc; reflexivity.
  - exists (set_footnotes (map (fun e => (fst e, name prefix (snd e))) (fst c) ++ [(n, prefix ++ dec (snd c + 1))]) (set_link_index (snd c + 1) s)). unfold new_id, increment_link_index, modify, put, get, bind, ret. cbv beta iota. rewrite L. cbn [ps_footnotes set_link_index set_footnotes]. rewrite F.
    rewrite insert_new by (rewrite known_assoc, Ek; reflexivity). rewrite assoc_new by (rewrite known_assoc, Ek; reflexivity). cbn [of_opt]. unfold ret. cbv beta iota. split; [|split; [|repeat split]].
    + match goal with |- Ret ?x _ = Ret ?y _ => assert (x = y) as ->; [|reflexivity] end. cbn [fst]. fold (name prefix (snd c + 1)). rewrite Em. destruct plain; [change (seqb (bang true) (u "!")) with true|change (seqb (bang false) (u "!")) with false]; cbv iota; rewrite sup_new; rewrite <- !app_assoc; reflexivity.
    + split; cbn [snd fst ps_footnotes set_footnotes ps_link_index set_link_index]; [|reflexivity]. rewrite map_app. reflexivity.
Qed.

(** ** All of them *)
Definition edge (l : list reference) (b : str) : Prop := l = [] \/ exists x y, b = x :: y /\ in_cls solid_c x = true.
Fixpoint spaced_out (l : list reference) : Prop :=
  match l with
  | [] => True
  | (n, plain, t) :: l' => footnote_number n /\ ~ In 91 t /\ edge l' (rev t ++ [93]) /\ spaced_out l'
  end.
Lemma edge_more l b rest : b <> [] -> edge l b -> edge l (b ++ rest).
Proof. intros Hn [H|(x & y & -> & H)]; [left; exact H|right]. exists x, (y ++ rest). auto. Qed.
Lemma html_shift n plain sp t c : reference_html prefix (n, plain, sp ++ t) c = (fst (reference_html prefix (n, plain, sp) c) ++ t, snd (reference_html prefix (n, plain, sp) c)).
Proof. unfold reference_html. destruct (known n (fst c)); cbn [fst snd]; rewrite <- !app_assoc; reflexivity. Qed.
Lemma foot_scan l : forall t before last c s, ~ In 91 t -> spaced_out l -> edge l (rev t ++ before) -> at_table c s ->
  exists s', outcome_is (mapM (replace_segM (f_footnote_id T)) (scan (rx_re FOOTNOTE_RE) before (t ++ flat_map reference_source l ++ [10; 10]) O last) s)
    (t ++ fst (references_html prefix l c) ++ [10; 10]) s' /\ at_table (snd (references_html prefix l c)) s' /\ keeps_rest s s'.
Proof.
  induction l as [|[[n plain] t'] l IH]; intros t before last c s H91 Hl He Hs.
  - exists s. split; [|split; [exact Hs|apply keeps_refl]]. cbn [flat_map references_html fst app]. rewrite <- (app_nil_r (t ++ [10; 10])) at 1.
    destruct (foot_lits (t ++ [10; 10])) with (before := before) (rest := @nil N) (last := last) as (l' & E). { intros F. apply in_app_or in F as [F|[F|[F|[]]]]; [exact (H91 F)|discriminate|discriminate]. }
    rewrite E, foot_end. rewrite <- (app_nil_r (t ++ [10; 10])) at 2. apply lits_then. exists []. split; reflexivity.
  - destruct Hl as (Hn & H9 & He' & Hl). destruct He as [He|(b & bs & Eb & Hb)]; [discriminate|]. cbn [flat_map references_html]. rewrite <- app_assoc.
    destruct (foot_lits t H91 before (reference_source (n, plain, t') ++ flat_map reference_source l ++ [10; 10]) last) as (last1 & E). rewrite E. clear E. rewrite Eb.
    set (rest := t' ++ flat_map reference_source l ++ [10; 10]).
    assert (reference_source (n, plain, t') ++ flat_map reference_source l ++ [10; 10] = 91 :: n ++ bang plain ++ 93 :: rest) as ->.
    { unfold reference_source, rest. change (u "[") with [91]. change (u "]") with [93]. change (u "!") with [33]. unfold bang. destruct plain; rewrite <- !app_assoc; cbn [app]; rewrite <- ?app_assoc; reflexivity. }
    destruct (foot_hit b bs n plain rest Hb Hn) as (st & M & Ma & C1 & C2 & C3).
    set (w := 91 :: n ++ bang plain ++ 93 :: eaten rest). assert (91 :: n ++ bang plain ++ 93 :: rest = w ++ left_over rest) as Ew.
    { unfold w. rewrite (eaten_left rest) at 1. cbn [app]. rewrite <- !app_assoc. cbn [app]. reflexivity. }
    rewrite Ew in *. rewrite (scan_take _ (b :: bs) w (left_over rest) st last1 ltac:(discriminate) M Ma).
    destruct (footnote_shown (mk_hit_of (w ++ left_over rest) st) n plain (eaten rest) c s C1 C2 C3 Hs) as (s1 & F & Ht1 & K1).
    set (c1 := snd (reference_html prefix (n, plain, []) c)) in *. set (K := fst (reference_html prefix (n, plain, []) c)).
    assert (EK : forall x, reference_html prefix (n, plain, x) c = (K ++ x, c1)) by (intros x; exact (html_shift n plain [] x c)).
    rewrite EK in F, Ht1. rewrite EK. cbn [fst snd] in F, Ht1.
    assert (exists y s', outcome_is (mapM (replace_segM (f_footnote_id T)) (scan (rx_re FOOTNOTE_RE) (rev w ++ b :: bs) (left_over rest) O true) s1) y s' /\
      eaten rest ++ y = t' ++ fst (references_html prefix l c1) ++ [10; 10] /\ at_table (snd (references_html prefix l c1)) s' /\ keeps_rest s1 s') as (y & s' & O & Ey & Ht' & K').
    { assert (Ew2 : rev w ++ b :: bs = rev (eaten rest) ++ 93 :: rev (bang plain) ++ rev n ++ 91 :: b :: bs).
      { unfold w. change (91 :: n ++ bang plain ++ 93 :: eaten rest) with ([91] ++ n ++ bang plain ++ [93] ++ eaten rest). rewrite !rev_app_distr, <- !app_assoc. reflexivity. }
      destruct l as [|r l].
      - exists (left_over rest), s1. cbn [references_html fst snd app]. split; [|split; [|split; [exact Ht1|apply keeps_refl]]].
        + destruct (foot_lits (left_over rest)) with (before := rev w ++ b :: bs) (rest := @nil N) (last := true) as (l' & E).
          { assert (~ In 91 rest) as N. { unfold rest. cbn [flat_map app]. intros Fx. apply in_app_or in Fx as [Fx|[Fx|[Fx|[]]]]; [exact (H9 Fx)|discriminate|discriminate]. }
            intros Fx. apply N. rewrite (eaten_left rest). apply in_or_app. right. exact Fx. }
          rewrite app_nil_r in E. rewrite E, foot_end. rewrite <- (app_nil_r (left_over rest)) at 2. apply lits_then. exists []. split; reflexivity.
        + rewrite <- eaten_left. reflexivity.
      - destruct He' as [He'|(x & z & Ex & Hx)]; [discriminate|].
        assert (X : exists t'', left_over rest = t'' ++ flat_map reference_source (r :: l) ++ [10; 10] /\ t' = eaten rest ++ t'').
        { unfold rest. destruct t' as [|q t']; [exists []; split; [destruct r as [[? ?] ?]; reflexivity|destruct r as [[? ?] ?]; reflexivity]|]. cbn [app eaten left_over]. destruct (in_cls space_c q); [exists t'|exists (q :: t')]; split; reflexivity. }
        destruct X as (t'' & X1 & X2). rewrite X1.
        destruct (IH t'' (rev w ++ b :: bs) true c1 s1) as (s' & O & A1 & A2); auto.
        + intros Fx. apply H9. rewrite X2. apply in_or_app. right. exact Fx.
        + right. rewrite Ew2, app_assoc, <- rev_app_distr, <- X2. exists x. destruct (rev t') as [|x0 z0].
          * cbn [app] in *. injection Ex as <- <-. eexists. split; [reflexivity|exact Hx].
          * cbn [app] in *. injection Ex as <- <-. eexists. split; [reflexivity|exact Hx].
        + eexists _, s'. split; [exact O|]. split; [|split; [exact A1|exact A2]]. rewrite app_assoc, <- X2. reflexivity. }
    exists s'. split; [|split].
    + apply lits_then. destruct O as (ys & O1 & O2). cbn [mapM replace_segM]. unfold bind at 1. rewrite F. unfold bind at 1. rewrite O1. eexists. split; [reflexivity|]. cbn [List.concat].
      rewrite O2. destruct (references_html prefix l c1) as [xs c2]. cbn [fst snd] in *. rewrite <- !app_assoc. rewrite Ey. reflexivity.
    + destruct (references_html prefix l c1) as [xs c2]. exact Ht'.
    + eapply keeps_trans; eauto.
Qed.
Lemma foot_refs t l c s : ~ In 91 t -> spaced_out l -> edge l (rev t) -> at_table c s ->
  exists s', footnote_ref T (t ++ flat_map reference_source l ++ [10; 10]) s = Ret (t ++ fst (references_html prefix l c) ++ [10; 10]) s' /\
    at_table (snd (references_html prefix l c)) s' /\ keeps_rest s s'.
Proof.
  intros H1 H2 H3 Hs. destruct (foot_scan l t [] false c s H1 H2) as (s' & (x & E & Ex) & A & B); auto. { rewrite app_nil_r. exact H3. }
  exists s'. split; [|auto]. unfold footnote_ref, replace_allM, segs. unfold bind. rewrite E. unfold ret. rewrite Ex. reflexivity.
Qed.
End Replaced.
