(** The typographic replacements, as rules for any text. *)
From Verif Require Import Str Unicode Regex RegexParse RegexSnips RegexTheory RegexAuto Lib ModelBase ModelHtml ModelInline ModelParser ProofParse ProofTags ProofDoc ProofWeave ProofFootHits ProofSymbolHits SpecGlyphRules.
#[local] Arguments u : simpl never.

(** ** From left to right *)
Definition at_ok (r : re) (f : hit -> str) (H : option N -> str -> option (str * str)) : Prop := forall before t,
  match H (hd_error before) t with
  | Some (o, rest) => exists w s, w <> [] /\ t = w ++ rest /\ match_at r before t = Some s /\ m_after s = rest /\ f (mk_hit_of t s) = o
  | None => match_at r before t = None
  end.
Lemma last_rev w before : w <> [] -> hd_error (rev w ++ before) = last_of w (hd_error before).
Proof. intros Hw. unfold last_of. destruct (rev w) as [|c v] eqn:E; [|reflexivity]. apply (f_equal (@rev N)) in E. rewrite rev_involutive in E. contradiction. Qed.
Lemma rewrites_of r f H : at_ok r f H -> forall n t before last, (List.length t <= n)%nat ->
  flat_map (fun g => match g with Lit c => [c] | Hit h => f h end) (scan r before t O last) = rewrite_of H n (hd_error before) t.
Proof.
  intros Ho. assert (End : forall before last, flat_map (fun g => match g with Lit c => [c] | Hit h => f h end) (scan r before [] O last) = []).
  { intros before last. rewrite scan_nil. specialize (Ho before []). destruct (H (hd_error before) []) as [[o rest]|].
    - destruct Ho as (w & s & Hw & E & _). destruct w; [congruence|discriminate].
    - rewrite Ho. destruct last; reflexivity. }
  induction n as [|n IH]; intros t before last Hn; [destruct t; [apply End|cbn in Hn; lia]|]. destruct t as [|c t]; [apply End|]. cbn [rewrite_of]. pose proof (Ho before (c :: t)) as Q. destruct (H (hd_error before) (c :: t)) as [[o rest]|].
  - destruct Q as (w & s & Hw & E & M & Ma & F). rewrite E in M, F |- *. rewrite (scan_take r before w rest s last Hw M Ma). cbn [flat_map]. rewrite F. f_equal. rewrite IH.
    + rewrite last_rev by exact Hw. f_equal. rewrite app_length, Nat.add_sub, firstn_app, Nat.sub_diag, firstn_all, app_nil_r. reflexivity.
    + apply (f_equal (@List.length N)) in E. rewrite app_length in E. destruct w; [congruence|]. cbn [List.length] in *. lia.
  - rewrite scan_cons, Q. cbn [flat_map app]. f_equal. apply IH. cbn in Hn. lia.
Qed.
Lemma rewrites r f H t : at_ok r f H -> replace_all r f t = rewritten H t.
Proof. intros Ho. unfold replace_all, segs. rewrite (rewrites_of r f H Ho (List.length t)) by lia. reflexivity. Qed.

(** ** Rules *)
Definition one_of (R : re) (p : N -> bool) : Prop := forall b cs k,
  m R (mk_mst b [] cs) k = None /\ forall c t, m R (mk_mst b (c :: t) cs) k = if p c then k (mk_mst (c :: b) t cs) else None.
Lemma one_cls K p : (forall c, in_cls K c = p c) -> one_of (RCls K) p.
Proof. intros H b cs k. split; [apply m_cls_nil|]. intros c t. rewrite m_cls, H. reflexivity. Qed.
Lemma one_alt R R' p p' : one_of R p -> one_of R' p' -> one_of (RAlt R R') (fun c => p c || p' c).
Proof.
  intros H H' b cs k. destruct (H b cs k) as [N1 C1], (H' b cs k) as [N2 C2]. split; [rewrite m_alt, N1; exact N2|]. intros c t. rewrite m_alt, C1, C2. destruct (p c), (p' c); cbn [orb]; try reflexivity; destruct (k (mk_mst (c :: b) t cs)); reflexivity.
Qed.
Lemma one_ext R p p' : one_of R p -> (forall c, p c = p' c) -> one_of R p'.
Proof. intros H E b cs k. destruct (H b cs k) as [N1 C1]. split; [exact N1|]. intros c t. rewrite C1, E. reflexivity. Qed.
Fixpoint body (ks : list re) (R : re) : re := match ks with k :: ks' => RSeq k (body ks' R) | [] => R end.
Lemma body_at R ks ps : Forall2 one_of ks ps -> forall b t cs k, m (body ks R) (mk_mst b t cs) k = match marks ps t with Some (w, r) => m R (mk_mst (rev w ++ b) r cs) k | None => None end.
Proof.
  induction 1 as [|K p ks ps H _ IH]; intros b t cs k; [destruct t; reflexivity|]. cbn [body marks]. rewrite m_seq. destruct (H b cs (fun s => m (body ks R) s k)) as [N1 C1]. destruct t as [|c t]; [exact N1|]. rewrite C1. destruct (p c); [|reflexivity].
  rewrite IH. destruct (marks ps t) as [[w r]|]; [|reflexivity]. cbn [rev]. rewrite <- app_assoc. reflexivity.
Qed.
Lemma marks_is ps : forall t w r, marks ps t = Some (w, r) -> t = w ++ r /\ List.length w = List.length ps.
Proof.
  induction ps as [|p ps IH]; intros t w r H; [destruct t; injection H as <- <-; auto|]. destruct t as [|c t]; [discriminate|]. cbn [marks] in H. destruct (p c); [|discriminate]. destruct (marks ps t) as [[w' r']|] eqn:E; [|discriminate]. injection H as <- <-.
  destruct (IH _ _ _ E) as [-> L]. split; [reflexivity|]. cbn [List.length]. rewrite L. reflexivity.
Qed.
Definition lead_group (l : lead) : bool := match l with Bare => false | _ => true end.
Definition trail_group (l : trail) : bool := match l with Then _ | MayThen _ => true | _ => false end.
Definition grp (b : bool) (n : nat) (t r : str) (cs : caps) : caps := if b then (n, (t, r)) :: cs else cs.
(** The part of an expression for the lead, with what comes after it. *)
Definition lead_ok (R : re) (l : lead) (k : mst -> option mst) : Prop := forall b t cs,
  m R (mk_mst b t cs) k = first_of (fun x : str * str => k (mk_mst (rev (fst x) ++ b) (snd x) (grp (lead_group l) 1 t (snd x) cs))) (leads l (hd_error b) t).
Definition trail_ok (R : re) (l : trail) : Prop := forall b t cs,
  m R (mk_mst b t cs) Some = match trails l t with Some (z, r) => Some (mk_mst (rev z ++ b) r (grp (trail_group l) 2 t r cs)) | None => None end.
Lemma opt_id (o : option mst) : o = match o with Some y => Some y | None => None end.
Proof. destruct o; reflexivity. Qed.
Lemma bare_ok k : lead_ok REps Bare k.
Proof. intros b t cs. rewrite m_eps. cbn. destruct (k (mk_mst b t cs)); reflexivity. Qed.
Lemma kept_ok R p k : one_of R p -> lead_ok (RGroup 1 R) (Kept p) k.
Proof.
  intros H b t cs. rewrite m_group. destruct (H b cs (fun s' => k (mk_mst (m_before s') (m_after s') ((1%nat, (t, m_after s')) :: m_caps s')))) as [N1 C1]. cbn [leads take_one]. destruct t as [|c t]; [exact N1|]. rewrite C1. cbn [take_one]. destruct (p c); [|reflexivity].
  cbn [first_of fst snd rev app m_before m_after m_caps lead_group grp]. match goal with |- ?x = match ?y with _ => _ end => change y with x; destruct x; reflexivity end.
Qed.
Lemma may_keep_ok R p k : one_of R p -> lead_ok (RGroup 1 (RAlt R REps)) (MayKeep p) k.
Proof.
  intros H b t cs. rewrite m_group, m_alt, m_eps. destruct (H b cs (fun s' => k (mk_mst (m_before s') (m_after s') ((1%nat, (t, m_after s')) :: m_caps s')))) as [N1 C1]. cbn [leads take_one]. destruct t as [|c t].
  - rewrite N1. apply opt_id.
  - rewrite C1. cbn [take_one]. destruct (p c); cbn [app first_of fst snd rev m_before m_after m_caps lead_group grp].
    + destruct (k (mk_mst (c :: b) t _)); [reflexivity|]. destruct (k (mk_mst b (c :: t) _)); reflexivity.
    + destruct (k (mk_mst b (c :: t) _)); reflexivity.
Qed.
Definition apart_re : re := RGroup 1 (RAlt (RSeq (RAssert WB) (RAlt (RCls (one 32)) REps)) (RAlt (RCls space_c) (RAssert SOT))).
Lemma in_space_c c : in_cls space_c c = is_ws c.
Proof. unfold in_cls, space_c. cbn [c_neg c_items existsb in_item has_prop]. rewrite orb_false_r. destruct (is_ws c); reflexivity. Qed.
Lemma apart_ok k : (forall b t cs, match t with c :: _ => is_ws c = false /\ word_char c = false | [] => False end \/ k (mk_mst b t cs) = None) -> lead_ok apart_re Apart k.
Proof.
  intros Hk b t cs. unfold apart_re. rewrite m_group, m_alt, m_seq, m_assert. cbv beta. rewrite !m_alt, m_assert, m_eps. cbn [m_before m_after m_caps assert_holds]. cbn [m_before m_after m_caps leads].
  set (G := fun r => (1%nat, (t, r)) :: cs). destruct t as [|c t].
  - rewrite !m_cls_nil. cbn [take_one app first_of]. destruct (Hk b [] (G [])) as [[]|E]. unfold G in E. rewrite E. destruct (xorb (head_word b) (head_word [])), (is_empty b), (match hd_error b with Some c => word_char c | None => true end); cbn [first_of fst snd rev app lead_group grp]; rewrite ?E; reflexivity.
  - rewrite !m_cls, in_one, in_space_c. cbn [m_before m_after m_caps take_one head_word]. destruct (is_ws c) eqn:Ew.
    + destruct (Hk b (c :: t) (G (c :: t))) as [[F _]|E]; [congruence|]. unfold G in E. rewrite E.
      assert (Hl : forall X Y, match (if xorb (head_word b) (has_prop PWord c) then match (if c =? 32 then X else None) with Some y => Some y | None => None end else None) with Some y => Some y | None => match X with Some y => Some y | None => Y end end = match X with Some y => Some y | None => Y end :> option mst).
      { intros X Y. destruct (xorb _ _), (c =? 32), X; reflexivity. }
      rewrite Hl. cbn [app first_of fst snd rev lead_group grp]. destruct (k (mk_mst (c :: b) t _)); [reflexivity|]. destruct (is_empty b), (match hd_error b with Some c => word_char c | None => true end); cbn [first_of fst snd rev app]; rewrite ?E; reflexivity.
    + assert (c =? 32 = false) as -> by (destruct (N.eqb_spec c 32) as [->|]; [discriminate|reflexivity]). cbn [app].
      destruct (Hk b (c :: t) (G (c :: t))) as [[_ F]|E].
      * unfold word_char in F. cbn [has_prop]. rewrite F, xorb_false_r. destruct b as [|d b]; cbn [head_word is_empty hd_error].
        -- cbn [first_of fst snd rev app lead_group grp]. destruct (k (mk_mst [] (c :: t) _)); reflexivity.
        -- cbn [has_prop]. unfold word_char. destruct (rmem tab_Word d); [|reflexivity]. cbn [first_of fst snd rev app lead_group grp]. destruct (k (mk_mst (d :: b) (c :: t) _)); reflexivity.
      * unfold G in E. rewrite E. destruct (xorb (head_word b) (has_prop PWord c)), (is_empty b), (match hd_error b with Some c => word_char c | None => true end); cbn [first_of fst snd rev app lead_group grp]; rewrite ?E; reflexivity.
Qed.
Lemma nothing_ok : trail_ok REps Nothing. Proof. intros b t cs. reflexivity. Qed.
Lemma then_ok R p : one_of R p -> trail_ok (RGroup 2 R) (Then p).
Proof. intros H b t cs. rewrite m_group. destruct (H b cs (fun s' => Some (mk_mst (m_before s') (m_after s') ((2%nat, (t, m_after s')) :: m_caps s')))) as [N1 C1]. cbn [trails]. destruct t as [|c t]; [exact N1|]. rewrite C1. destruct (p c); reflexivity. Qed.
Lemma may_then_ok R p : one_of R p -> trail_ok (RGroup 2 (RAlt R REps)) (MayThen p).
Proof. intros H b t cs. rewrite m_group, m_alt, m_eps. destruct (H b cs (fun s' => Some (mk_mst (m_before s') (m_after s') ((2%nat, (t, m_after s')) :: m_caps s')))) as [N1 C1]. cbn [trails]. destruct t as [|c t]; [rewrite N1; reflexivity|]. rewrite C1. destruct (p c); reflexivity. Qed.
Lemma ahead_ok R q : (forall b t cs, match m R (mk_mst b t cs) Some with Some _ => true | None => false end = q t) -> trail_ok (RLook R) (Ahead q).
Proof. intros H b t cs. cbn [m trails]. specialize (H b t cs). destruct (m R (mk_mst b t cs) Some); rewrite <- H; reflexivity. Qed.
Lemma leads_is l prev t x : In x (leads l prev t) -> t = fst x ++ snd x.
Proof.
  assert (H1 : forall p t, In x (take_one p t) -> t = fst x ++ snd x). { intros p [|c t'] H; [destruct H|]. cbn [take_one] in H. destruct (p c); [|destruct H]. destruct H as [<-|[]]. reflexivity. }
  destruct l; cbn [leads]; intros H; try (apply in_app_or in H; destruct H as [H|H]); try (apply H1 in H; exact H).
  - destruct H as [<-|[]]. reflexivity.
  - destruct H as [<-|[]]. reflexivity.
  - destruct (match prev with Some c => word_char c | None => true end); [|destruct H]. destruct H as [<-|[]]. reflexivity.
Qed.
Lemma trails_is l t z r : trails l t = Some (z, r) -> t = z ++ r.
Proof.
  destruct l; cbn [trails]; intros H.
  - injection H as <- <-. reflexivity.
  - destruct t as [|c t]; [discriminate|]. destruct (p c); [|discriminate]. injection H as <- <-. reflexivity.
  - destruct t as [|c t]; [injection H as <- <-; reflexivity|]. destruct (p c); injection H as <- <-; reflexivity.
  - destruct (q t); [|discriminate]. injection H as <- <-. reflexivity.
Qed.
Definition template (R : rule) (h : hit) : str := (if lead_group (r_lead R) then group_text (u "1") h else []) ++ r_symbol R ++ (if trail_group (r_trail R) then group_text (u "2") h else []).
Lemma leads_bare l prev t x : lead_group l = false -> In x (leads l prev t) -> fst x = [].
Proof. destruct l; try discriminate. cbn [leads]. intros _ [<-|[]]. reflexivity. Qed.
Lemma trails_none l t z r : trail_group l = false -> trails l t = Some (z, r) -> z = [].
Proof. destruct l; try discriminate; cbn [trails]; intros _ H; [injection H as <- <-; reflexivity|]. destruct (q t); [|discriminate]. injection H as <- <-. reflexivity. Qed.
Lemma rule_ok R r f L ks TR : (forall s, m r s Some = m (RSeq L (body ks TR)) s Some) -> (forall h, f h = template R h) ->
  lead_ok L (r_lead R) (fun s => m (body ks TR) s Some) -> Forall2 one_of ks (r_mark R) -> trail_ok TR (r_trail R) -> r_mark R <> [] ->
  at_ok r f (rule_at R).
Proof.
  intros Hs Hf HL HM HT Hne before t. unfold rule_at, match_at. rewrite Hs, m_seq, HL. pose proof (leads_is (r_lead R) (hd_error before) t) as Hi. pose proof (leads_bare (r_lead R) (hd_error before) t) as Hb.
  induction (leads (r_lead R) (hd_error before) t) as [|x l IH]; [reflexivity|]. cbn [first_of]. rewrite (body_at TR ks (r_mark R) HM). destruct (marks (r_mark R) (snd x)) as [[w t1]|] eqn:E1.
  - rewrite HT. destruct (trails (r_trail R) t1) as [[z t2]|] eqn:E2.
    + pose proof (Hi x (or_introl eq_refl)) as Et. destruct (marks_is _ _ _ _ E1) as [Ex Ew]. pose proof (trails_is _ _ _ _ E2) as Ez.
      exists (fst x ++ w ++ z). eexists. split; [|split; [|split; [reflexivity|split; [reflexivity|]]]].
      * intros F. apply app_eq_nil in F as [_ F]. apply app_eq_nil in F as [F _]. subst w. destruct (r_mark R); [congruence|discriminate].
      * rewrite Et, Ex, Ez at 1. rewrite <- !app_assoc. reflexivity.
      * rewrite Hf. unfold template, mk_hit_of. cbn [m_caps m_after]. rewrite Et.
        assert (G1 : lead_group (r_lead R) = true -> forall h cs0, group_text (u "1") (mk_hit h (grp (trail_group (r_trail R)) 2 t1 t2 (grp true 1 (fst x ++ snd x) (snd x) cs0))) = fst x).
        { intros _ h cs0. apply group_1. apply (cap_is _ _ _ (snd x)). destruct (trail_group (r_trail R)); reflexivity. }
        assert (G2 : forall h cs0, group_text (u "2") (mk_hit h (grp true 2 t1 t2 cs0)) = z).
        { intros h cs0. apply group_2. apply (cap_is _ _ _ t2). rewrite Ez. reflexivity. }
        f_equal; [|f_equal].
        -- destruct (lead_group (r_lead R)) eqn:EL; [apply G1; reflexivity|]. symmetry. apply Hb; [reflexivity|left; reflexivity].
        -- destruct (trail_group (r_trail R)) eqn:ER; [apply G2|]. symmetry. exact (trails_none _ _ _ _ ER E2).
    + apply IH; [intros y Hy; apply Hi; right; exact Hy|intros y Hl Hy; apply Hb; [exact Hl|right; exact Hy]].
  - apply IH; [intros y Hy; apply Hi; right; exact Hy|intros y Hl Hy; apply Hb; [exact Hl|right; exact Hy]].
Qed.

(** ** Classes *)
Lemma in_range c d : in_item (CRange c c) d = (d =? c).
Proof. cbn [in_item]. destruct (N.eqb_spec d c) as [->|]; [rewrite N.leb_refl; reflexivity|]. destruct (N.leb_spec c d), (N.leb_spec d c); auto; lia. Qed.
Lemma is_one c d : in_cls (one c) d = is c d. Proof. rewrite in_one. reflexivity. Qed.
Lemma in_list l d : in_cls (mk_cls false (map (fun c => CRange c c) l)) d = among l d.
Proof. unfold in_cls, among. cbn [c_neg c_items]. rewrite xorb_false_l. induction l as [|c l IH]; [reflexivity|]. cbn [map existsb]. rewrite IH, in_range. reflexivity. Qed.
Lemma one_is c : one_of (RCls (one c)) (is c). Proof. apply one_cls. intros d. apply is_one. Qed.
Lemma one_among l : one_of (RCls (mk_cls false (map (fun c => CRange c c) l))) (among l). Proof. apply one_cls. intros d. apply in_list. Qed.
Lemma one_ws : one_of (RCls space_c) is_ws. Proof. apply one_cls. intros d. apply in_space_c. Qed.
Lemma in_solid_c d : in_cls solid_c d = solid d.
Proof. unfold in_cls, solid_c, solid. cbn [c_neg c_items existsb in_item has_prop]. rewrite orb_false_r. destruct (is_ws d); reflexivity. Qed.
Lemma one_solid : one_of (RCls solid_c) solid. Proof. apply one_cls. intros d. apply in_solid_c. Qed.
Definition prop_c (p : uprop) : cls := mk_cls false [CProp false p].
Lemma in_prop p d : in_cls (prop_c p) d = has_prop p d.
Proof. unfold in_cls, prop_c. cbn [c_neg c_items existsb in_item]. rewrite orb_false_r, !xorb_false_l. reflexivity. Qed.
Definition letter_re : re := RAlt (RCls (prop_c PL)) (RAlt (RCls (prop_c PM)) (RAlt (RCls (prop_c PN)) (RCls (prop_c PPc)))).
Lemma one_letter : one_of letter_re letter.
Proof.
  eapply one_ext; [apply one_alt; [apply one_cls; intros d; apply in_prop|apply one_alt; [apply one_cls; intros d; apply in_prop|apply one_alt; apply one_cls; intros d; apply in_prop]]|].
  intros c. unfold letter. cbn [has_prop]. rewrite !orb_assoc. reflexivity.
Qed.
Lemma one_not c : one_of (RCls (mk_cls true [CRange c c])) (fun d => negb (is c d)).
Proof. apply one_cls. intros d. unfold in_cls, is. cbn [c_neg c_items existsb]. rewrite orb_false_r, in_range. destruct (d =? c); reflexivity. Qed.
(** What may follow. *)
Lemma solid_ahead b t cs : match m (RCls solid_c) (mk_mst b t cs) Some with Some _ => true | None => false end = starts_solid t.
Proof. destruct t as [|c t]; [rewrite m_cls_nil; reflexivity|]. rewrite m_cls, in_solid_c. cbn [starts_solid]. destruct (solid c); reflexivity. Qed.
Definition end_re : re := RAlt (RCls space_c) (RAlt (RCls (mk_cls false (map (fun c => CRange c c) punctuation))) (RAlt (RCls (one 60)) (RAssert EOT))).
Lemma ends_ahead b t cs : match m end_re (mk_mst b t cs) Some with Some _ => true | None => false end = ends_here t.
Proof.
  unfold end_re. rewrite !m_alt, m_assert. destruct t as [|c t]; [rewrite !m_cls_nil; reflexivity|]. rewrite !m_cls, in_space_c, in_list, in_one. cbn [assert_holds is_empty ends_here]. destruct (is_ws c); [reflexivity|]. destruct (among punctuation c) eqn:E; [reflexivity|].
  destruct (N.eqb_spec c 60) as [->|]; [vm_compute in E; discriminate|reflexivity].
Qed.
Definition brackets (ks : list re) : list re := RCls (mk_cls false (map (fun c => CRange c c) (u "(["))) :: ks ++ [RCls (mk_cls false (map (fun c => CRange c c) (u "])")))].
Lemma brackets_ok ks ps : Forall2 one_of ks ps -> Forall2 one_of (brackets ks) (bracketed ps).
Proof. intros H. unfold brackets, bracketed. constructor; [apply one_among|]. apply Forall2_app; [exact H|]. constructor; [apply one_among|constructor]. Qed.
Lemma brackets_apart ks ps : Forall2 one_of ks ps -> lead_ok apart_re Apart (fun s => m (body (brackets ks) REps) s Some).
Proof.
  intros H. apply apart_ok. intros b t cs. rewrite (body_at _ _ _ (brackets_ok _ _ H)). destruct t as [|c t]; [right; reflexivity|]. unfold bracketed. cbn [marks]. destruct (among (u "([") c) eqn:E; [left|right; reflexivity].
  unfold among in E. apply existsb_exists in E as (d & Hd & E). apply N.eqb_eq in E. subst d. change (u "([") with [40; 91] in Hd. destruct Hd as [<-|[<-|[]]]; split; vm_compute; reflexivity.
Qed.
(** ** The rules *)
Ltac by_shape := let s := fresh "s" in intros s; reflexivity.
Ltac by_template k := let h := fresh "h" in intros h; unfold template; cbn [r_lead r_trail r_symbol lead_group trail_group];
  match goal with |- expand ?t h = _ ++ r_symbol ?R ++ _ =>
    match k with
    | 0%nat => change (expand t h) with (r_symbol R); cbn [app]; rewrite app_nil_r; reflexivity
    | 1%nat => change (expand t h) with (group_text (u "1") h ++ r_symbol R); rewrite app_nil_r; reflexivity
    | 2%nat => change (expand t h) with (group_text (u "1") h ++ r_symbol R ++ group_text (u "2") h ++ []); rewrite app_nil_r; reflexivity
    end
  end.
Ltac all_one := repeat (first [apply Forall2_nil | apply Forall2_cons; [first [apply one_is | apply (one_among [_; _])]|]]).
Lemma apostrophe_ok : at_ok (rx_re GL_APOS) (expand (u "$1&#8217;$2")) (rule_at apostrophe).
Proof. apply (rule_ok _ _ _ (RGroup 1 (RAlt letter_re (RCls (one 41)))) [RCls (one 39)] (RGroup 2 letter_re)); [by_shape|by_template 2%nat|apply kept_ok, one_alt; [apply one_letter|apply one_is]|all_one|apply then_ok, one_letter|discriminate]. Qed.
Lemma single_in_bracket_ok : at_ok (rx_re GL_SOPENB) (expand (u "$1&#8216;")) (rule_at single_in_bracket).
Proof. apply (rule_ok _ _ _ (RGroup 1 (RCls (mk_cls false (map (fun c => CRange c c) opener)))) [RCls (one 39)] (RLook (RCls solid_c))); [by_shape|by_template 1%nat|apply kept_ok, one_among|all_one|apply ahead_ok, solid_ahead|discriminate]. Qed.
Lemma single_close_ok : at_ok (rx_re GL_SCLOSE) (expand (u "$1&#8217;")) (rule_at single_close).
Proof. apply (rule_ok _ _ _ (RGroup 1 (RCls solid_c)) [RCls (one 39)] (RLook end_re)); [by_shape|by_template 1%nat|apply kept_ok, one_solid|all_one|apply ahead_ok, ends_ahead|discriminate]. Qed.
Lemma single_open_ok : at_ok (rx_re GL_SOPEN) (expand (u "&#8216;")) (rule_at single_open).
Proof. apply (rule_ok _ _ _ (REps) [RCls (one 39)] (REps)); [by_shape|by_template 0%nat|apply bare_ok|all_one|apply nothing_ok|discriminate]. Qed.
Lemma double_in_bracket_ok : at_ok (rx_re GL_DOPENB) (expand (u "$1&#8220;")) (rule_at double_in_bracket).
Proof. apply (rule_ok _ _ _ (RGroup 1 (RCls (mk_cls false (map (fun c => CRange c c) opener)))) [RCls (one 34)] (RLook (RCls solid_c))); [by_shape|by_template 1%nat|apply kept_ok, one_among|all_one|apply ahead_ok, solid_ahead|discriminate]. Qed.
Lemma double_close_ok : at_ok (rx_re GL_DCLOSE) (expand (u "$1&#8221;")) (rule_at double_close).
Proof. apply (rule_ok _ _ _ (RGroup 1 (RCls solid_c)) [RCls (one 34)] (RLook end_re)); [by_shape|by_template 1%nat|apply kept_ok, one_solid|all_one|apply ahead_ok, ends_ahead|discriminate]. Qed.
Lemma double_open_ok : at_ok (rx_re GL_DOPEN) (expand (u "&#8220;")) (rule_at double_open).
Proof. apply (rule_ok _ _ _ (REps) [RCls (one 34)] (REps)); [by_shape|by_template 0%nat|apply bare_ok|all_one|apply nothing_ok|discriminate]. Qed.
Lemma ellipsis_ok : at_ok (rx_re GL_ELLIPSIS) (expand (u "$1&#8230;")) (rule_at ellipsis).
Proof. apply (rule_ok _ _ _ (RGroup 1 (RAlt (RCls (mk_cls true [CRange 46 46])) REps)) [RCls (one 46); RCls (one 46); RCls (one 46)] (REps)); [by_shape|by_template 1%nat|apply may_keep_ok, one_not|all_one|apply nothing_ok|discriminate]. Qed.
Lemma ampersand_ok : at_ok (rx_re GL_AMP) (expand (u "$1&amp;$2")) (rule_at ampersand).
Proof. apply (rule_ok _ _ _ (RGroup 1 (RAlt (RCls space_c) REps)) [RCls (one 38)] (RGroup 2 (RCls space_c))); [by_shape|by_template 2%nat|apply may_keep_ok, one_ws|all_one|apply then_ok, one_ws|discriminate]. Qed.
Lemma em_dash_ok : at_ok (rx_re GL_EMDASH) (expand (u "$1&#8212;$2")) (rule_at em_dash).
Proof. apply (rule_ok _ _ _ (RGroup 1 (RAlt (RCls space_c) REps)) [RCls (one 45); RCls (one 45)] (RGroup 2 (RAlt (RCls space_c) REps))); [by_shape|by_template 2%nat|apply may_keep_ok, one_ws|all_one|apply may_then_ok, one_ws|discriminate]. Qed.
Lemma en_dash_ok : at_ok (rx_re GL_ENDASH) (expand (u " &#8211; ")) (rule_at en_dash).
Proof. apply (rule_ok _ _ _ (REps) [RCls (one 32); RCls (one 45); RCls (one 32)] (REps)); [by_shape|by_template 0%nat|apply bare_ok|all_one|apply nothing_ok|discriminate]. Qed.
Lemma trademark_ok : at_ok (rx_re GL_TM) (expand (u "$1&#8482;")) (rule_at trademark).
Proof. apply (rule_ok _ _ _ (apart_re) (brackets [RCls (mk_cls false (map (fun c => CRange c c) [84; 116])); RCls (mk_cls false (map (fun c => CRange c c) [77; 109]))]) (REps)); [by_shape|by_template 1%nat|apply (brackets_apart _ [both 84 116; both 77 109]); all_one|apply brackets_ok; all_one|apply nothing_ok|discriminate]. Qed.
Lemma registered_ok : at_ok (rx_re GL_REG) (expand (u "$1&#174;")) (rule_at registered).
Proof. apply (rule_ok _ _ _ (apart_re) (brackets [RCls (mk_cls false (map (fun c => CRange c c) [82; 114]))]) (REps)); [by_shape|by_template 1%nat|apply (brackets_apart _ [both 82 114]); all_one|apply brackets_ok; all_one|apply nothing_ok|discriminate]. Qed.
Lemma copyright_ok : at_ok (rx_re GL_COPY) (expand (u "$1&#169;")) (rule_at copyright).
Proof. apply (rule_ok _ _ _ (apart_re) (brackets [RCls (mk_cls false (map (fun c => CRange c c) [67; 99]))]) (REps)); [by_shape|by_template 1%nat|apply (brackets_apart _ [both 67 99]); all_one|apply brackets_ok; all_one|apply nothing_ok|discriminate]. Qed.
Lemma one_half_ok : at_ok (rx_re GL_HALF) (expand (u "&#189;")) (rule_at one_half).
Proof. apply (rule_ok _ _ _ (REps) (brackets [RCls (one 49); RCls (one 47); RCls (one 50)]) (REps)); [by_shape|by_template 0%nat|apply bare_ok|apply brackets_ok; all_one|apply nothing_ok|discriminate]. Qed.
Lemma one_quarter_ok : at_ok (rx_re GL_QUARTER) (expand (u "&#188;")) (rule_at one_quarter).
Proof. apply (rule_ok _ _ _ (REps) (brackets [RCls (one 49); RCls (one 47); RCls (one 52)]) (REps)); [by_shape|by_template 0%nat|apply bare_ok|apply brackets_ok; all_one|apply nothing_ok|discriminate]. Qed.
Lemma three_quarters_ok : at_ok (rx_re GL_3QUARTER) (expand (u "&#190;")) (rule_at three_quarters).
Proof. apply (rule_ok _ _ _ (REps) (brackets [RCls (one 51); RCls (one 47); RCls (one 52)]) (REps)); [by_shape|by_template 0%nat|apply bare_ok|apply brackets_ok; all_one|apply nothing_ok|discriminate]. Qed.
Lemma degree_ok : at_ok (rx_re GL_DEGREE) (expand (u "&#176;")) (rule_at degree).
Proof. apply (rule_ok _ _ _ (REps) (brackets [RCls (one 111)]) (REps)); [by_shape|by_template 0%nat|apply bare_ok|apply brackets_ok; all_one|apply nothing_ok|discriminate]. Qed.
Lemma plus_minus_ok : at_ok (rx_re GL_PLUSMINUS) (expand (u "&#177;")) (rule_at plus_minus).
Proof. apply (rule_ok _ _ _ (REps) (brackets [RCls (one 43); RCls (one 47); RCls (one 45)]) (REps)); [by_shape|by_template 0%nat|apply bare_ok|apply brackets_ok; all_one|apply nothing_ok|discriminate]. Qed.

(** ** Abbreviations *)
Definition caps_c : cls := mk_cls false [CProp false PLu; CProp false PNd].
Definition acronym_end : re := RSeq (RAssert WB) (RSeq (RCls (one 40)) (RSeq (RGroup 2 (RStar true (RCls (mk_cls true [CRange 41 41])))) (RCls (one 41)))).
Lemma acronym_shape : rx_re GL_ACRONYM = RSeq (RAssert WB) (RSeq (RGroup 1 (RSeq (RCls (prop_c PLu)) (RSeq (RSeq (RCls caps_c) (RCls caps_c)) (RStar true (RCls caps_c))))) acronym_end).
Proof. reflexivity. Qed.
Lemma in_caps d : in_cls caps_c d = capital_or_digit d.
Proof. unfold in_cls, caps_c, capital_or_digit. cbn [c_neg c_items existsb in_item has_prop]. rewrite orb_false_r, !xorb_false_l. reflexivity. Qed.
Lemma in_not c d : in_cls (mk_cls true [CRange c c]) d = negb (d =? c).
Proof. unfold in_cls. cbn [c_neg c_items existsb]. rewrite orb_false_r, in_range. destruct (d =? c); reflexivity. Qed.
Lemma run_split p t : forall w r, run p t = (w, r) -> t = w ++ r /\ forallb p w = true /\ match r with c :: _ => p c = false | [] => True end.
Proof.
  induction t as [|c t IH]; cbn [run]; intros w r H; [injection H as <- <-; auto|]. destruct (p c) eqn:E.
  - destruct (run p t) as [w' r'] eqn:F. injection H as <- <-. destruct (IH _ _ eq_refl) as (-> & H1 & H2). split; [reflexivity|]. split; [|exact H2]. cbn [forallb]. rewrite E, H1. reflexivity.
  - injection H as <- <-. auto.
Qed.
Lemma star_run c k : forall w before rest cs, forallb (in_cls c) w = true -> stops c rest ->
  (forall w1 x w2, w = w1 ++ x :: w2 -> k (mk_mst (rev w1 ++ before) (x :: w2 ++ rest) cs) = None) ->
  m (RStar true (RCls c)) (mk_mst before (w ++ rest) cs) k = k (mk_mst (rev w ++ before) rest cs).
Proof.
  intros w before rest cs Hw Hr Hk. destruct (k (mk_mst (rev w ++ before) rest cs)) as [y|] eqn:E; [apply m_star_greedy; assumption|]. apply m_star_none; [exact Hr|].
  intros w1 w2 ->. destruct w2 as [|x w2]; [rewrite app_nil_r in E; exact E|]. cbn [app]. eapply Hk. reflexivity.
Qed.
Lemma end_open b x t cs k : x <> 40 -> m acronym_end (mk_mst b (x :: t) cs) k = None.
Proof. intros H. unfold acronym_end. rewrite m_seq, m_assert. destruct (assert_holds _ _ _); [|reflexivity]. rewrite m_seq, m_cls, in_one. apply N.eqb_neq in H. rewrite H. reflexivity. Qed.
Lemma end_at b r cs : m acronym_end (mk_mst b r cs) Some =
  if head_word b then match r with y :: r' => if y =? 40 then let (x, r2) := run (fun d => negb (d =? 41)) r' in match r2 with _ :: r3 => Some (mk_mst (41 :: rev x ++ 40 :: b) r3 ((2%nat, (r', r2)) :: cs)) | [] => None end else None | [] => None end else None.
Proof.
  destruct r as [|y r]; [unfold acronym_end; rewrite m_seq, m_assert; destruct (assert_holds _ _ _); [rewrite m_seq, m_cls_nil|]; destruct (head_word b); reflexivity|].
  destruct (N.eqb_spec y 40) as [->|Hy]; [|rewrite end_open by exact Hy; destruct (head_word b); reflexivity].
  unfold acronym_end. rewrite m_seq, m_assert. cbn [assert_holds]. assert (head_word (40 :: r) = false) as -> by (vm_compute; reflexivity). rewrite xorb_false_r. destruct (head_word b); [|reflexivity]. rewrite m_seq, m_cls, in_one. cbn [N.eqb Pos.eqb]. rewrite m_seq, m_group.
  destruct (run (fun d => negb (d =? 41)) r) as [x r2] eqn:E. destruct (run_split _ _ _ _ E) as (Er & Hx & Hr2). rewrite Er at 1. rewrite star_run.
  - cbn [m_before m_after m_caps]. destruct r2 as [|z r3]; [apply m_cls_nil|]. rewrite m_cls, in_one. apply negb_false_iff in Hr2. rewrite Hr2. apply N.eqb_eq in Hr2. subst z. reflexivity.
  - rewrite forallb_forall in Hx |- *. intros d Hd. rewrite in_not. apply Hx. exact Hd.
  - destruct r2 as [|z r3]; [exact I|]. cbn [stops]. rewrite in_not. exact Hr2.
  - intros w1 z w2 Ew. cbn [m_before m_after m_caps]. rewrite m_cls, in_one. rewrite Ew, forallb_app in Hx. apply andb_prop in Hx as [_ Hx]. cbn [forallb] in Hx. apply andb_prop in Hx as [Hz _]. apply negb_true_iff in Hz. rewrite Hz. reflexivity.
Qed.
Definition abbr_template (html5 : bool) : str := if html5 then u "<abbr title=""$2"">$1</abbr>" else u "<acronym title=""$2"">$1</acronym>".
Lemma abbr_expand (html5 : bool) h : let tag := if html5 then u "abbr" else u "acronym" in
  expand (abbr_template html5) h = u "<" ++ tag ++ u " title=""" ++ group_text (u "2") h ++ u """>" ++ group_text (u "1") h ++ u "</" ++ tag ++ u ">".
Proof. destruct html5; reflexivity. Qed.
Lemma abbreviation_ok html5 : at_ok (rx_re GL_ACRONYM) (expand (abbr_template html5)) (abbreviation_at html5).
Proof.
  intros before t. unfold match_at. rewrite acronym_shape, m_seq, m_assert. cbn [assert_holds].
  assert (Hb : head_word before = word_here (hd_error before)) by (destruct before; reflexivity). rewrite Hb. destruct t as [|c t].
  { cbn [abbreviation_at]. destruct (xorb _ _); [|reflexivity]. rewrite m_seq, m_group, m_seq, m_cls_nil. reflexivity. }
  unfold abbreviation_at. change (head_word (c :: t)) with (word_char c). destruct (run capital_or_digit t) as [w r] eqn:E. destruct (run_split _ _ _ _ E) as (Et & Hw & Hr).
  destruct (xorb (word_here (hd_error before)) (word_char c)); [|rewrite andb_false_r; reflexivity]. rewrite m_seq, m_group, m_seq, m_cls, in_prop. change (has_prop PLu c) with (capital c). destruct (capital c); [|reflexivity]. cbn [andb].
  rewrite m_seq, m_seq. destruct w as [|d1 w].
  { cbn [app] in Et. subst t. cbn [List.length Nat.leb andb]. destruct r as [|x r]; [apply m_cls_nil|]. rewrite m_cls, in_caps, Hr. reflexivity. }
  cbn [forallb] in Hw. apply andb_prop in Hw as [H1 Hw]. subst t. clear E. cbn [app]. rewrite m_cls, in_caps, H1. destruct w as [|d2 w].
  { cbn [app List.length Nat.leb andb]. destruct r as [|x r]; [apply m_cls_nil|]. rewrite m_cls, in_caps, Hr. reflexivity. }
  cbn [forallb] in Hw. apply andb_prop in Hw as [H2 Hw]. cbn [app List.length Nat.leb andb]. rewrite m_cls, in_caps, H2. rewrite star_run.
  - cbn [m_before m_after m_caps]. rewrite end_at.
    assert (head_word (rev w ++ d2 :: d1 :: c :: before) = word_here (last_of (d1 :: d2 :: w) None)) as ->.
    { unfold last_of. cbn [rev]. rewrite <- !app_assoc. cbn [app]. destruct (rev w) as [|x v]; reflexivity. }
    destruct (word_here (last_of (d1 :: d2 :: w) None)); [|reflexivity]. destruct r as [|y r]; [reflexivity|]. destruct (run (fun d => negb (d =? 41)) r) as [x r2] eqn:E2. destruct (run_split _ _ _ _ E2) as (Er & Hx & Hr2).
    destruct r2 as [|z r3]; [destruct (y =? 40); reflexivity|]. destruct (N.eqb_spec y 40) as [->|]; [|reflexivity]. cbv zeta.
    exists (c :: (d1 :: d2 :: w) ++ 40 :: x ++ [z]). eexists. split; [discriminate|]. split; [|split; [reflexivity|split; [reflexivity|]]].
    + rewrite Er at 1. cbn [app]. repeat (rewrite <- app_assoc; cbn [app]). reflexivity.
    + rewrite abbr_expand. unfold mk_hit_of. cbn [m_caps m_after]. rewrite (group_1 _ _ (c :: d1 :: d2 :: w)), (group_2 _ _ x); [reflexivity| |].
      * apply (cap_is _ _ x (z :: r3)). cbn [find_cap Nat.eqb]. rewrite Er. reflexivity.
      * apply (cap_is _ _ (c :: d1 :: d2 :: w) (40 :: r)). reflexivity.
  - rewrite forallb_forall in Hw |- *. intros d Hd. rewrite in_caps. apply Hw. exact Hd.
  - destruct r as [|x r]; [exact I|]. cbn [stops]. rewrite in_caps. exact Hr.
  - intros w1 x w2 Ew. cbn [m_before m_after m_caps]. apply end_open. intros ->. rewrite Ew, forallb_app in Hw. apply andb_prop in Hw as [_ Hw]. cbn [forallb] in Hw. apply andb_prop in Hw as [Hx _]. vm_compute in Hx. discriminate.
Qed.

(** ** All of them *)
Lemma by_rule r t R text : at_ok (rx_re r) (expand t) (rule_at R) -> replace_tmpl (rx_re r) t text = rewritten (rule_at R) text.
Proof. intros H. unfold replace_tmpl. apply rewrites. exact H. Qed.
Lemma glyphs_by_rules html5 text :
  multi_replace text (glyph_replacers html5) =
    rewritten (abbreviation_at html5) (by_rules later_rules (replace_tmpl (rx_re GL_BACKIN) (u "$1&#8217;$2") (rewritten (rule_at apostrophe) (replace_tmpl (rx_re GL_DIM) (u "$1&#215;$2") text)))).
Proof.
  unfold multi_replace, glyph_replacers. cbn [fold_left fst snd].
  assert (A : forall x, replace_tmpl (rx_re GL_ACRONYM) (if html5 then u "<abbr title=""$2"">$1</abbr>" else u "<acronym title=""$2"">$1</acronym>") x = rewritten (abbreviation_at html5) x) by (intros x; unfold replace_tmpl; apply rewrites, abbreviation_ok).
  rewrite A. unfold by_rules, later_rules. cbn [fold_left].
  rewrite (by_rule GL_PLUSMINUS _ _ _ plus_minus_ok), (by_rule GL_DEGREE _ _ _ degree_ok), (by_rule GL_3QUARTER _ _ _ three_quarters_ok), (by_rule GL_QUARTER _ _ _ one_quarter_ok), (by_rule GL_HALF _ _ _ one_half_ok),
    (by_rule GL_COPY _ _ _ copyright_ok), (by_rule GL_REG _ _ _ registered_ok), (by_rule GL_TM _ _ _ trademark_ok), (by_rule GL_ENDASH _ _ _ en_dash_ok), (by_rule GL_EMDASH _ _ _ em_dash_ok), (by_rule GL_AMP _ _ _ ampersand_ok),
    (by_rule GL_ELLIPSIS _ _ _ ellipsis_ok), (by_rule GL_DOPEN _ _ _ double_open_ok), (by_rule GL_DCLOSE _ _ _ double_close_ok), (by_rule GL_DOPENB _ _ _ double_in_bracket_ok), (by_rule GL_SOPEN _ _ _ single_open_ok),
    (by_rule GL_SCLOSE _ _ _ single_close_ok), (by_rule GL_SOPENB _ _ _ single_in_bracket_ok), (by_rule GL_APOS _ _ _ apostrophe_ok). reflexivity.
Qed.
