(** Line ends and empty lines. *)
From Verif Require Import Str Unicode Regex RegexParse RegexSnips RegexTheory RegexGroups Lib ModelBase ModelHtml ModelInline ModelParser
  SpecRegex ProofRegex SpecParse ProofParse SpecNewlines.
#[local] Arguments u : simpl never.

Lemma cr_shape : rx_re NORM_CR_RE = RSeq (RCls (one 13)) (RAlt (RCls (one 10)) REps).
Proof. reflexivity. Qed.
Definition tab_blank : cls := mk_cls false [CRange 32 32; CRange 9 9].
Lemma blank_shape : rx_re NORM_BLANK_RE = RSeq (RAssert SOL) (RSeq (RStar true (RCls tab_blank)) (RCls (one 10))).
Proof. reflexivity. Qed.

(** ** CR *)
Lemma scan_cr : forall n text before last, (List.length text <= n)%nat ->
  flat_map (fun g => match g with Lit c => [c] | Hit _ => [10] end) (scan (rx_re NORM_CR_RE) before text O last) = unix text.
Proof.
  induction n as [|n IH]; intros text before last Hn.
  - destruct text; [|cbn in Hn; lia]. rewrite scan_nil. destruct last; reflexivity.
  - destruct text as [|c rest].
    { rewrite scan_nil. destruct last; reflexivity. }
    cbn [List.length] in Hn. rewrite scan_cons. unfold match_at. rewrite cr_shape, m_seq, m_cls, in_one, <- cr_shape.
    destruct (N.eqb_spec c 13) as [->|Hc].
    2:{ cbn [flat_map app]. rewrite IH by lia. cbn [unix]. destruct c as [|p]; auto.
        do 4 (destruct p; auto; try (destruct Hc; reflexivity)). }
    destruct rest as [|d rest].
    + rewrite m_alt, m_cls_nil, m_eps. reflexivity.
    + rewrite m_alt, m_cls, in_one, m_eps. destruct (N.eqb_spec d 10) as [->|Hd].
      * unfold mk_hit_of. cbn [m_after m_caps h_text]. change (cap_str (13 :: 10 :: rest, rest)) with (cap_str ([13; 10] ++ rest, rest)).
        rewrite cap_str_app. cbn [flat_map]. cbn [List.length] in Hn. rewrite IH by lia. reflexivity.
      * unfold mk_hit_of. cbn [m_after m_caps h_text]. change (cap_str (13 :: d :: rest, d :: rest)) with (cap_str ([13] ++ (d :: rest), d :: rest)).
        rewrite cap_str_app. cbn [flat_map]. cbn [List.length] in Hn. rewrite IH by (cbn; lia).
        cbn [unix app]. destruct d as [|p]; auto. do 4 (destruct p; auto; try (destruct Hd; reflexivity)).
Qed.
Lemma cr_unix text : replace_all (rx_re NORM_CR_RE) (fun _ => [10]) text = unix text.
Proof. apply (scan_cr (List.length text)). lia. Qed.

(** ** Lines *)
Lemma lines_some text : exists l ls, lines text = l :: ls.
Proof.
  induction text as [|c text (l & ls & IH)]; [cbn; eauto|]. cbn [lines]. rewrite IH. destruct c as [|p]; eauto.
  do 4 (destruct p; eauto).
Qed.
Lemma lines_cons c text : lines (c :: text) = if c =? 10 then [] :: lines text else match lines text with [] => [[c]] | l :: ls => (c :: l) :: ls end.
Proof. destruct c as [|p]; auto. do 4 (destruct p; auto). Qed.
Lemma unlines_cons l ls : ls <> [] -> unlines (l :: ls) = l ++ 10 :: unlines ls.
Proof. destruct ls; [congruence|reflexivity]. Qed.
Lemma unlines_lines text : unlines (lines text) = text.
Proof.
  induction text as [|c text IH]; [reflexivity|]. rewrite lines_cons. destruct (lines_some text) as (l & ls & E). rewrite E in *.
  destruct (N.eqb_spec c 10) as [->|Hc].
  - rewrite unlines_cons by congruence. rewrite IH. reflexivity.
  - destruct ls as [|x ls]; cbn [unlines] in *; rewrite <- IH; reflexivity.
Qed.
Lemma lines_none text l : In l (lines text) -> ~ In 10 l.
Proof.
  revert l. induction text as [|c text IH]; intros l; [intros [<-|[]]; auto|]. rewrite lines_cons.
  destruct (lines_some text) as (l0 & ls & E). rewrite E in *. destruct (N.eqb_spec c 10) as [->|Hc].
  - intros [<-|H]; auto.
  - intros [<-|H]; [|apply IH; right; auto]. intros [F|F]; [auto|]. apply (IH l0); auto. left; auto.
Qed.
(** The lines are the only way to cut the text. *)
Lemma lines_unlines ls : ls <> [] -> (forall l, In l ls -> ~ In 10 l) -> lines (unlines ls) = ls.
Proof.
  induction ls as [|l ls IH]; intros Hn Hl; [congruence|].
  assert (~ In 10 l) as H10 by (apply Hl; left; auto).
  destruct ls as [|x ls].
  - cbn [unlines]. clear - H10. induction l as [|c l IH]; [reflexivity|]. rewrite lines_cons.
    destruct (N.eqb_spec c 10) as [->|]; [destruct H10; left; auto|]. rewrite IH; auto. intros F. apply H10. right; auto.
  - rewrite unlines_cons by congruence. assert (lines (unlines (x :: ls)) = x :: ls) as E by (apply IH; [congruence|]; intros l0 H; apply Hl; right; auto).
    clear IH. generalize dependent (unlines (x :: ls)). intros t E. clear - H10 E. induction l as [|c l IH].
    + cbn [app]. rewrite lines_cons. cbn. rewrite E. reflexivity.
    + cbn [app]. rewrite lines_cons. destruct (N.eqb_spec c 10) as [->|]; [destruct H10; left; auto|]. rewrite IH; auto. intros F. apply H10. right; auto.
Qed.

(** ** Blank lines *)
Lemma in_tab_blank c : in_cls tab_blank c = (c =? 32) || (c =? 9).
Proof.
  unfold in_cls, tab_blank. cbn [c_neg c_items existsb in_item].
  assert (forall d, (d <=? c) && (c <=? d) = (c =? d)) as E.
  { intros d. destruct (N.leb_spec d c), (N.leb_spec c d), (N.eqb_spec c d); auto; lia. }
  rewrite !E. rewrite orb_false_r. destruct ((c =? 32) || (c =? 9)); reflexivity.
Qed.
Definition line_start (before : str) : Prop := match before with [] => True | c :: _ => c = 10 end.
Lemma blank_mid before c v : c <> 10 -> match_at (rx_re NORM_BLANK_RE) (c :: before) v = None.
Proof.
  intros H. unfold match_at. rewrite blank_shape, m_seq, m_assert. cbn [assert_holds].
  destruct (N.eqb_spec c 10); [congruence|reflexivity].
Qed.
Lemma blank_hit before l rest : line_start before -> blank_line l = true ->
  exists s, match_at (rx_re NORM_BLANK_RE) before (l ++ 10 :: rest) = Some s /\ m_after s = rest /\ m_caps s = [].
Proof.
  intros Hb Hl. exists (mk_mst (10 :: rev l ++ before) rest []). split; [|auto].
  unfold match_at. rewrite blank_shape, m_seq, m_assert.
  assert (assert_holds SOL before (l ++ 10 :: rest) = true) as -> by (destruct before; cbn; auto; rewrite Hb; reflexivity).
  rewrite m_seq. apply m_star_greedy.
  - unfold blank_line in Hl. rewrite <- Hl. clear. induction l as [|c l IH]; auto. cbn [forallb]. rewrite IH, in_tab_blank. reflexivity.
  - reflexivity.
  - rewrite m_cls, in_one. reflexivity.
Qed.
Lemma blank_miss before l rest : blank_line l = false -> ~ In 10 l -> match_at (rx_re NORM_BLANK_RE) before (l ++ rest) = None.
Proof.
  intros Hl Hn. unfold match_at. rewrite blank_shape, m_seq, m_assert. destruct (assert_holds _ _ _); auto. rewrite m_seq.
  assert (exists w c v, l = w ++ c :: v /\ forallb (in_cls tab_blank) w = true /\ in_cls tab_blank c = false) as (w & c & v & -> & H1 & H2).
  { clear Hn. induction l as [|c l IH]; [discriminate|]. destruct (in_cls tab_blank c) eqn:E.
    - unfold blank_line in *. cbn [forallb] in Hl. rewrite <- in_tab_blank, E in Hl. destruct (IH Hl) as (w & d & v & -> & H1 & H2).
      exists (c :: w), d, v. cbn [forallb app]. rewrite E. auto.
    - exists [], c, l. auto. }
  rewrite <- app_assoc. cbn [app]. apply m_star_none; [exact H2|]. intros w1 w2 ->. destruct w2 as [|d w2].
  - cbn [app]. rewrite m_cls, in_one. destruct (N.eqb_spec c 10) as [->|]; auto. destruct Hn. apply in_or_app. right. left. auto.
  - cbn [app]. rewrite m_cls, in_one. destruct (N.eqb_spec d 10) as [->|]; auto. destruct Hn. apply in_or_app. left. apply in_or_app. right. left. auto.
Qed.
Lemma blank_miss_end before l : ~ In 10 l -> match_at (rx_re NORM_BLANK_RE) before l = None.
Proof.
  intros Hn. destruct (blank_line l) eqn:Hl.
  2:{ rewrite <- (app_nil_r l). apply blank_miss; auto. }
  unfold match_at. rewrite blank_shape, m_seq, m_assert. destruct (assert_holds _ _ _); auto. rewrite m_seq.
  rewrite <- (app_nil_r l). apply m_star_none; [exact I|]. intros w1 w2 ->. rewrite app_nil_r. destruct w2 as [|d w2].
  - apply m_cls_nil.
  - rewrite m_cls, in_one. destruct (N.eqb_spec d 10) as [->|]; auto. destruct Hn. apply in_or_app. right. left. auto.
Qed.
(** Passing characters where nothing matches. *)
Lemma scan_pass r : forall w before rest last, w <> [] ->
  (forall a c b, w = a ++ c :: b -> match_at r (rev a ++ before) (c :: b ++ rest) = None) ->
  scan r before (w ++ rest) O last = map Lit w ++ scan r (rev w ++ before) rest O false.
Proof.
  induction w as [|c w IH]; intros before rest last Hn H; [congruence|].
  cbn [app]. rewrite scan_cons. pose proof (H [] c w eq_refl) as E. cbn [rev app] in E. rewrite E. cbn [map app rev]. f_equal.
  destruct w as [|d w]; [reflexivity|]. rewrite IH; [|congruence|].
  - rewrite <- !app_assoc. reflexivity.
  - intros a e b E2. specialize (H (c :: a) e b). cbn [rev app] in H. rewrite <- app_assoc in H. apply H. rewrite E2. reflexivity.
Qed.
Lemma rep_lits f w : flat_map (fun g => match g with Lit c => [c] | Hit h => f h end) (map Lit w) = w.
Proof. apply flat_map_lit. Qed.
Lemma not_last_10 l d r : ~ In 10 l -> rev l = d :: r -> d <> 10.
Proof. intros H E ->. apply H. apply in_rev. rewrite E. left. auto. Qed.
Lemma scan_blank : forall ls before last, ls <> [] -> (forall l, In l ls -> ~ In 10 l) -> line_start before ->
  flat_map (fun g => match g with Lit c => [c] | Hit _ => [10] end) (scan (rx_re NORM_BLANK_RE) before (unlines ls) O last) = unlines (blank_out ls).
Proof.
  induction ls as [|l ls IH]; intros before last Hn Hl Hb; [congruence|].
  assert (~ In 10 l) as H10 by (apply Hl; left; auto).
  destruct ls as [|x ls].
  - cbn [unlines blank_out]. destruct l as [|c l].
    + rewrite scan_nil. destruct last; auto. rewrite blank_miss_end by auto. reflexivity.
    + pose proof (scan_pass (rx_re NORM_BLANK_RE) (c :: l) before [] last) as E. rewrite app_nil_r in E. rewrite E; [|congruence|].
      * rewrite flat_map_app, rep_lits, scan_nil. destruct (rev (c :: l) ++ before) as [|d r] eqn:Er; [destruct (rev (c :: l)) eqn:F; [|discriminate]; apply (f_equal (@rev N)) in F; rewrite rev_involutive in F; discriminate|].
        assert (d <> 10) as Hd. { destruct (rev (c :: l)) as [|d' r'] eqn:F; [apply (f_equal (@rev N)) in F; rewrite rev_involutive in F; discriminate|]. injection Er as -> _. eapply not_last_10; eauto. }
        rewrite blank_mid by auto. cbn [flat_map]. apply app_nil_r.
      * intros a e b Eq. rewrite app_nil_r. apply blank_miss_end. intros F. apply H10. rewrite Eq. apply in_or_app. right. exact F.
  - rewrite unlines_cons by congruence. change (blank_out (l :: x :: ls)) with ((if blank_line l then [] else l) :: blank_out (x :: ls)).
    assert (blank_out (x :: ls) <> []) as Hbo by (destruct ls; cbn; discriminate). rewrite (unlines_cons _ (blank_out (x :: ls))) by auto.
    assert (forall b2 last2, line_start b2 -> flat_map (fun g => match g with Lit c => [c] | Hit _ => [10] end) (scan (rx_re NORM_BLANK_RE) b2 (unlines (x :: ls)) O last2) = unlines (blank_out (x :: ls))) as IH'.
    { intros b2 last2 Hb2. apply IH; auto; [congruence|]. intros l0 H. apply Hl. right. auto. }
    clear IH. generalize dependent (unlines (x :: ls)). intros t IH'. generalize dependent (unlines (blank_out (x :: ls))). intros t' IH'.
    destruct (blank_line l) eqn:Bl.
    + destruct (blank_hit before l t Hb Bl) as (s & E1 & E2 & E3).
      assert (exists c r, l ++ 10 :: t = c :: r) as (c & r & Ec) by (destruct l; cbn; eauto).
      rewrite Ec in *. rewrite scan_cons, E1.
      assert (h_text (mk_hit_of (c :: r) s) = l ++ [10]) as ->.
      { unfold mk_hit_of. cbn [h_text]. rewrite E2, <- Ec. rewrite <- (cap_str_app (l ++ [10]) t). rewrite <- app_assoc. reflexivity. }
      rewrite E2.
      destruct (l ++ [10]) as [|y l'] eqn:El; [destruct l; discriminate|]. cbn [flat_map]. rewrite <- El. cbn [app]. f_equal.
      rewrite rev_app_distr. apply IH'. reflexivity.
    + assert (l <> []) as Hne by (intros ->; discriminate).
      change (l ++ 10 :: t) with (l ++ ([10] ++ t)). rewrite app_assoc.
      rewrite scan_pass.
      * rewrite flat_map_app, rep_lits, <- app_assoc. cbn [app]. f_equal. f_equal. rewrite rev_app_distr. apply IH'. reflexivity.
      * destruct l; discriminate.
      * intros a e b Eq. destruct a as [|y a].
        { cbn [rev app]. assert (exists b', l = e :: b') as (b' & ->) by (destruct l; [congruence|]; injection Eq as -> _; eauto).
          injection Eq as <-. rewrite <- app_assoc. apply (blank_miss before (e :: b')); auto. }
        assert (~ In 10 (y :: a)) as Ha.
        { destruct b as [|z b].
          - apply app_inj_tail in Eq. destruct Eq as [-> _]. exact H10.
          - destruct (exists_last (l := z :: b)) as (b0 & z0 & Eb); [congruence|]. rewrite Eb, app_comm_cons, app_assoc in Eq. apply app_inj_tail in Eq.
            destruct Eq as [-> _]. intros F. apply H10. apply in_or_app. left. exact F. }
        destruct (rev (y :: a)) as [|d r] eqn:F; [apply (f_equal (@rev N)) in F; rewrite rev_involutive in F; discriminate|].
        cbn [app]. apply blank_mid. eapply not_last_10; eauto.
Qed.
Lemma blank_lines text : replace_all (rx_re NORM_BLANK_RE) (fun _ => [10]) text = unlines (blank_out (lines text)).
Proof.
  unfold replace_all, segs. rewrite <- (unlines_lines text) at 1. apply scan_blank; [|apply lines_none|exact I].
  destruct (lines_some text) as (l & ls & ->). congruence.
Qed.
Lemma no_leading_trim text : trim_start_by (N.eqb 10) text = no_leading text.
Proof. induction text as [|c text IH]; auto. cbn [trim_start_by]. destruct c as [|p]; auto. do 4 (destruct p; auto). Qed.
Lemma normalize_tidy text : normalize_newlines text = tidy text.
Proof.
  unfold normalize_newlines, tidy. rewrite cr_unix, blank_lines. unfold no_outer, trim_matches, trim_by, trim_end_by.
  rewrite !no_leading_trim. reflexivity.
Qed.

(** ** Escaping keeps the lines *)
Definition esc (text : str) : str := encode_html text false false.
Lemma esc_cons c t : esc (c :: t) = encode_char false false c ++ esc t.
Proof. reflexivity. Qed.
Lemma esc_app a b : esc (a ++ b) = esc a ++ esc b.
Proof. unfold esc, encode_html. apply flat_map_app. Qed.
Lemma esc_char c : (encode_char false false c = [c] \/
  exists x w, encode_char false false c = x :: w /\ ~ In 10 (x :: w) /\ ~ In 13 (x :: w) /\ blank_line (x :: w) = false /\ c <> 10 /\ c <> 13 /\ c <> 32 /\ c <> 9).
Proof.
  unfold encode_char. cbn [andb].
  destruct (N.eqb_spec c 38) as [->|]; [right|destruct (N.eqb_spec c 60) as [->|]; [right|destruct (N.eqb_spec c 62) as [->|]; [right|auto]]].
  all: eexists _, _; split; [reflexivity|]; split; [vm_compute; intuition discriminate|]; split; [vm_compute; intuition discriminate|].
  all: split; [reflexivity|]; repeat split; discriminate.
Qed.
Lemma unix_cons c t : unix (c :: t) = if c =? 13 then (match t with 10 :: _ => unix t | _ => 10 :: unix t end) else c :: unix t.
Proof. destruct c as [|p]; auto. do 4 (destruct p; auto). Qed.
Lemma unix_13 d t : unix (13 :: d :: t) = if d =? 10 then unix (d :: t) else 10 :: unix (d :: t).
Proof. rewrite unix_cons. cbn [N.eqb Pos.eqb]. destruct d as [|p]; auto. do 4 (destruct p; auto). Qed.
Lemma unix_plain w t : ~ In 13 w -> unix (w ++ t) = w ++ unix t.
Proof.
  induction w as [|c w IH]; intros H; auto. cbn [app]. rewrite unix_cons. destruct (N.eqb_spec c 13) as [->|]; [destruct H; left; auto|].
  rewrite IH; auto. intros F. apply H. right; auto.
Qed.
Lemma esc_no10 c : c <> 10 -> exists x w, encode_char false false c = x :: w /\ x <> 10.
Proof.
  intros H. destruct (esc_char c) as [->|(x & w & -> & H1 & _)]; eauto. exists x, w. split; auto. intros ->. apply H1. left. auto.
Qed.
Lemma unix_esc t : unix (esc t) = esc (unix t).
Proof.
  induction t as [|c t IH]; [reflexivity|]. rewrite esc_cons. destruct (N.eqb_spec c 13) as [->|Hc].
  - change (encode_char false false 13) with [13]. cbn [app]. destruct t as [|d t]; [reflexivity|].
    rewrite unix_13. destruct (N.eqb_spec d 10) as [->|Hd].
    + rewrite <- IH. reflexivity.
    + rewrite esc_cons in *. destruct (esc_no10 d Hd) as (x & w & E & Hx). rewrite E in *. cbn [app] in *. rewrite unix_13.
      destruct (N.eqb_spec x 10); [congruence|]. rewrite IH. reflexivity.
  - rewrite unix_cons. destruct (N.eqb_spec c 13); [congruence|]. rewrite esc_cons, <- IH. apply unix_plain.
    destruct (esc_char c) as [->|(x & w & -> & _ & H & _)]; auto. intros [F|[]]; auto.
Qed.
Lemma lines_plain w t : ~ In 10 w -> lines (w ++ t) = match lines t with [] => [] | l :: ls => (w ++ l) :: ls end.
Proof.
  destruct (lines_some t) as (l & ls & E). rewrite E. induction w as [|c w IH]; intros H; auto. cbn [app]. rewrite lines_cons.
  destruct (N.eqb_spec c 10) as [->|]; [destruct H; left; auto|]. rewrite IH; auto. intros F. apply H. right; auto.
Qed.
Lemma lines_esc t : lines (esc t) = map esc (lines t).
Proof.
  induction t as [|c t IH]; [reflexivity|]. rewrite esc_cons, lines_cons. destruct (N.eqb_spec c 10) as [->|Hc].
  - change (encode_char false false 10) with [10]. cbn [app]. rewrite lines_cons, IH. reflexivity.
  - rewrite lines_plain, IH.
    + destruct (lines_some t) as (l & ls & ->). reflexivity.
    + destruct (esc_char c) as [->|(x & w & -> & H & _)]; auto. intros [F|[]]; auto.
Qed.
Lemma blank_line_app a b : blank_line (a ++ b) = blank_line a && blank_line b.
Proof. apply forallb_app. Qed.
Lemma blank_esc l : blank_line (esc l) = blank_line l.
Proof.
  induction l as [|c l IH]; [reflexivity|]. rewrite esc_cons, blank_line_app, IH. change (blank_line (c :: l)) with (blank_line ([c] ++ l)).
  rewrite blank_line_app. f_equal. destruct (esc_char c) as [->|(x & w & -> & _ & _ & -> & _ & _ & H1 & H2)]; auto.
  unfold blank_line. cbn [forallb]. destruct (N.eqb_spec c 32); [congruence|]. destruct (N.eqb_spec c 9); [congruence|]. reflexivity.
Qed.
Lemma blank_out_esc ls : blank_out (map esc ls) = map esc (blank_out ls).
Proof.
  induction ls as [|l ls IH]; [reflexivity|]. destruct ls as [|x ls]; [reflexivity|].
  change (blank_out (map esc (l :: x :: ls))) with ((if blank_line (esc l) then [] else esc l) :: blank_out (map esc (x :: ls))).
  rewrite IH, blank_esc. change (blank_out (l :: x :: ls)) with ((if blank_line l then [] else l) :: blank_out (x :: ls)). cbn [map].
  destruct (blank_line l); reflexivity.
Qed.
Lemma unlines_esc ls : unlines (map esc ls) = esc (unlines ls).
Proof.
  induction ls as [|l ls IH]; [reflexivity|]. destruct ls as [|x ls]; [reflexivity|]. cbn [map]. change (esc x :: map esc ls) with (map esc (x :: ls)).
  rewrite !unlines_cons by discriminate. rewrite IH, esc_app. reflexivity.
Qed.
Lemma esc_nil t : esc t = [] -> t = [].
Proof. destruct t as [|c t]; auto. rewrite esc_cons. destruct (esc_char c) as [->|(x & w & -> & _)]; discriminate. Qed.
Lemma no_leading_newlines n t : no_leading (newlines n ++ t) = no_leading t.
Proof. induction n; auto. Qed.
Lemma no_leading_id c t : c <> 10 -> no_leading (c :: t) = c :: t.
Proof. intros H. destruct c as [|p]; auto. do 4 (destruct p; auto; try (destruct H; reflexivity)). Qed.
Lemma rev_newlines n : rev (newlines n) = newlines n.
Proof.
  unfold newlines. induction n; [reflexivity|]. cbn [repeat rev]. rewrite IHn. clear. induction n; [reflexivity|]. cbn [repeat app]. rewrite IHn. reflexivity.
Qed.
(** A text is newlines, a middle and newlines. *)
Definition solid (m : str) : Prop := m = [] \/ exists c d w v, m = c :: w /\ m = v ++ [d] /\ c <> 10 /\ d <> 10.
Lemma outer_split t : exists n m k, t = newlines n ++ m ++ newlines k /\ solid m /\ (m = [] -> k = O).
Proof.
  assert (forall t, exists n r, t = newlines n ++ r /\ (r = [] \/ exists c w, r = c :: w /\ c <> 10)) as L.
  { clear. induction t as [|c t (n & r & -> & H)]; [exists O, []; auto|]. destruct (N.eqb_spec c 10) as [->|Hc].
    - exists (S n), r. auto.
    - exists O, (c :: newlines n ++ r). split; [reflexivity|]. right. eauto. }
  destruct (L t) as (n & r & -> & [->|(c & w & -> & Hc)]).
  { exists n, [], O. repeat split; auto. left. auto. }
  destruct (L (rev (c :: w))) as (k & r & E & [->|(d & v & -> & Hd)]).
  - rewrite app_nil_r in E. apply (f_equal (@rev N)) in E. rewrite rev_involutive, rev_newlines in E. destruct k; [discriminate|]. injection E as -> _. congruence.
  - exists n, (rev v ++ [d]), k. apply (f_equal (@rev N)) in E. rewrite rev_involutive, rev_app_distr, rev_newlines in E. cbn [rev] in E.
    split; [rewrite E; reflexivity|]. split; [|destruct (rev v); discriminate]. right.
    destruct (rev v) as [|x v'] eqn:Ev.
    + injection E as -> _. exists d, d, [], []. auto.
    + injection E as <- _. exists c, d, (v' ++ [d]), (c :: v'). auto.
Qed.
Lemma no_outer_split n m k : solid m -> no_outer (newlines n ++ m ++ newlines k) = m.
Proof.
  intros H. unfold no_outer. rewrite no_leading_newlines. destruct H as [->|(c & d & w & v & E1 & E2 & Hc & Hd)].
  - cbn [app]. rewrite <- (app_nil_r (newlines k)), no_leading_newlines. reflexivity.
  - rewrite E1 at 1. cbn [app]. rewrite no_leading_id by auto. rewrite app_comm_cons, <- E1, rev_app_distr, rev_newlines, no_leading_newlines, E2, rev_app_distr.
    cbn [rev app]. rewrite no_leading_id by auto. cbn [rev]. rewrite rev_involutive. reflexivity.
Qed.
Lemma esc_newlines n : esc (newlines n) = newlines n.
Proof. induction n; [reflexivity|]. cbn. f_equal. exact IHn. Qed.
Lemma no_outer_esc t : no_outer (esc t) = esc (no_outer t).
Proof.
  destruct (outer_split t) as (n & m & k & -> & H & _). rewrite !esc_app, !esc_newlines, !no_outer_split; auto.
  destruct H as [->|(c & d & w & v & E1 & E2 & Hc & Hd)]; [left; auto|]. right.
  destruct (esc_no10 c Hc) as (x & w' & E & Hx).
  assert (exists y v', encode_char false false d = v' ++ [y] /\ y <> 10) as (y & v' & Ey & Hy).
  { destruct (esc_char d) as [->|(y & v' & -> & H1 & _)]; [exists d, []; auto|]. destruct (exists_last (l := y :: v')) as (v0 & y0 & E0); [congruence|]. rewrite E0 in *.
    exists y0, v0. split; auto. intros ->. apply H1. apply in_or_app. right. left. auto. }
  exists x, y, (w' ++ esc w), (esc v ++ v'). split; [rewrite E1, esc_cons, E; reflexivity|]. split; auto.
  rewrite E2, esc_app, esc_cons, Ey. change (esc []) with (@nil N). rewrite app_nil_r, app_assoc. reflexivity.
Qed.
Lemma tidy_esc t : tidy (esc t) = esc (tidy t).
Proof. unfold tidy. rewrite unix_esc, lines_esc, blank_out_esc, unlines_esc, no_outer_esc. reflexivity. Qed.

(** ** Documents *)
Lemma prepare_tidy T a b : tidy a = tidy b -> prepare T a = prepare T b.
Proof.
  intros H. unfold prepare. f_equal. rewrite !normalize_tidy. destruct (t_restricted T); auto. fold (esc a) (esc b). rewrite !tidy_esc, H. reflexivity.
Qed.
(** Tidying changes white space only. *)
Lemma in_unix c t : ~ white_space c -> (In c (unix t) <-> In c t).
Proof.
  intros H. assert (c <> 10 /\ c <> 13) as [H1 H2] by (split; intros ->; apply H; unfold white_space; lia).
  induction t as [|d t IH]; [reflexivity|]. destruct (N.eqb_spec d 13) as [->|Hd].
  - destruct t as [|e t]; [cbn; intuition congruence|]. rewrite unix_13. destruct (N.eqb_spec e 10) as [->|]; rewrite ?IH; cbn [In]; rewrite ?IH; cbn [In]; intuition congruence.
  - rewrite unix_cons. destruct (N.eqb_spec d 13); [congruence|]. cbn [In]. rewrite IH. reflexivity.
Qed.
Lemma in_unlines c ls : ~ white_space c -> (In c (unlines ls) <-> exists l, In l ls /\ In c l).
Proof.
  intros H. assert (c <> 10) as H1 by (intros ->; apply H; unfold white_space; lia).
  induction ls as [|l ls IH]; [split; [intros []|intros (l & [] & _)]|]. destruct ls as [|x ls].
  - cbn [unlines]. split; [intros F; exists l; cbn; auto|]. intros (l0 & [<-|[]] & F). auto.
  - rewrite unlines_cons by discriminate. rewrite in_app_iff. change (In c (10 :: unlines (x :: ls))) with (10 = c \/ In c (unlines (x :: ls))). rewrite IH. split.
    + intros [F|[F|(l0 & F & G)]]; [exists l; split; [left|]; auto|congruence|]. exists l0. split; [right|]; auto.
    + intros (l0 & [<-|F] & G); [left; auto|]. right. right. eauto.
Qed.
Lemma in_blank_out c ls : ~ white_space c -> ((exists l, In l (blank_out ls) /\ In c l) <-> exists l, In l ls /\ In c l).
Proof.
  intros H. induction ls as [|l ls IH]; [reflexivity|]. destruct ls as [|x ls]; [reflexivity|].
  change (blank_out (l :: x :: ls)) with ((if blank_line l then [] else l) :: blank_out (x :: ls)).
  assert (blank_line l = true -> ~ In c l) as Hl.
  { intros B F. unfold blank_line in B. rewrite forallb_forall in B. apply B in F. apply H. unfold white_space. apply orb_prop in F.
    destruct F as [F|F]; apply N.eqb_eq in F; lia. }
  split.
  - intros (l0 & [<-|H0] & Hc).
    + destruct (blank_line l); [destruct Hc|]. exists l. cbn. auto.
    + destruct IH as [IH _]. destruct IH as (l1 & H1 & H2); [eauto|]. exists l1. split; auto. right. auto.
  - intros (l0 & [<-|H0] & Hc).
    + destruct (blank_line l); [destruct (Hl eq_refl Hc)|]. exists l. split; auto. left. auto.
    + destruct IH as [_ IH]. destruct IH as (l1 & H1 & H2); [eauto|]. exists l1. split; auto. right. auto.
Qed.
Lemma in_newlines c n : In c (newlines n) -> c = 10.
Proof. intros H. apply repeat_spec in H. auto. Qed.
Lemma in_tidy c t : ~ white_space c -> (In c (tidy t) <-> In c t).
Proof.
  intros H. unfold tidy. transitivity (In c (unlines (blank_out (lines (unix t))))).
  - destruct (outer_split (unlines (blank_out (lines (unix t))))) as (n & m & k & -> & Hm & _). rewrite no_outer_split by auto.
    rewrite !in_app_iff. split; auto. intros [F|[F|F]]; auto; apply in_newlines in F; subst; destruct H; unfold white_space; lia.
  - rewrite in_unlines, in_blank_out by auto. rewrite <- in_unlines by auto. rewrite unlines_lines. apply in_unix. auto.
Qed.
Lemma white_dec c : white_space c \/ ~ white_space c.
Proof. unfold white_space. lia. Qed.
Lemma blank_tidy t : blank (tidy t) <-> blank t.
Proof.
  unfold blank. rewrite !Forall_forall. split; intros H c Hc; (destruct (white_dec c) as [W|W]; [auto|]); apply H; apply (in_tidy c t W); auto.
Qed.
Lemma parse_tidy W T fuel c a b : ~ blank a -> tidy a = tidy b -> parse W T fuel c a = parse W T fuel c b.
Proof.
  intros Ha E. assert (~ blank b) as Hb by (rewrite <- blank_tidy, <- E, blank_tidy; auto).
  unfold parse, parse_m. rewrite (prepare_tidy T a b E).
  assert (forall t, ~ blank t -> is_empty (trim t) = false) as B by (intros t Ht; destruct (is_empty (trim t)) eqn:F; auto; apply blank_iff in F; tauto).
  rewrite !B by auto. reflexivity.
Qed.
(** Line ends. *)
Lemma ended_cons e l x ls : ended e (l :: x :: ls) = l ++ e ++ ended e (x :: ls).
Proof. reflexivity. Qed.
Lemma unix_ended e ls : e = [13; 10] \/ e = [10] -> plain_lines ls -> unix (ended e ls) = ended [10] ls.
Proof.
  intros He Hl. induction ls as [|l ls IH]; [reflexivity|]. assert (~ In 13 l) as H13 by (apply Hl; left; auto).
  destruct ls as [|x ls].
  - cbn [ended]. rewrite <- (app_nil_r l), unix_plain by auto. reflexivity.
  - rewrite !ended_cons, unix_plain by auto. rewrite <- IH by (intros y Hy; apply Hl; right; auto). destruct He as [-> | ->]; reflexivity.
Qed.
Lemma unix_cr ls : plain_lines ls -> unix (ended [13] ls) = ended [10] ls.
Proof.
  intros Hl. induction ls as [|l ls IH]; [reflexivity|]. assert (~ In 13 l) as H13 by (apply Hl; left; auto).
  destruct ls as [|x ls].
  - cbn [ended]. rewrite <- (app_nil_r l), unix_plain by auto. reflexivity.
  - rewrite !ended_cons, unix_plain by auto. rewrite <- IH by (intros y Hy; apply Hl; right; auto). f_equal. cbn [app].
    assert (forall d v, ended [13] (x :: ls) = d :: v -> d <> 10) as Hd.
    { intros d v E ->. destruct x as [|y x].
      - destruct ls; discriminate.
      - assert (y = 10) as -> by (destruct ls; injection E as -> _; auto). destruct (Hl (10 :: x)) as [F _]; [right; left; auto|]. apply F. left. auto. }
    destruct (ended [13] (x :: ls)) as [|d v]; [reflexivity|]. rewrite unix_13. destruct (N.eqb_spec d 10) as [->|]; [destruct (Hd 10 v eq_refl); auto|reflexivity].
Qed.
Lemma unix_unix t : unix (unix t) = unix t.
Proof.
  assert (forall t, ~ In 13 (unix t)) as H.
  { clear. intros t. induction t as [|c t IH]; [auto|]. destruct (N.eqb_spec c 13) as [->|Hc].
    - destruct t as [|d t]; [cbn; intuition discriminate|]. rewrite unix_13. destruct (d =? 10); auto. intros [F|F]; [discriminate|auto].
    - rewrite unix_cons. destruct (N.eqb_spec c 13); [congruence|]. intros [F|F]; auto. }
  rewrite <- (app_nil_r (unix t)) at 1. rewrite unix_plain by auto. apply app_nil_r.
Qed.
Lemma tidy_unix t : tidy (unix t) = tidy t.
Proof. unfold tidy. rewrite unix_unix. reflexivity. Qed.
Lemma line_ends W T fuel c ls e : e = [13; 10] \/ e = [13] -> plain_lines ls -> ~ blank (ended [10] ls) ->
  parse W T fuel c (ended e ls) = parse W T fuel c (ended [10] ls).
Proof.
  intros He Hl Hb. symmetry. apply parse_tidy; auto. rewrite <- (tidy_unix (ended e ls)).
  destruct He as [-> | ->]; [rewrite unix_ended by auto|rewrite unix_cr by auto]; reflexivity.
Qed.
(** Blank lines. *)
Lemma unix_mid a x : unix (a ++ 10 :: x) = unix (a ++ [10]) ++ unix x.
Proof.
  induction a as [|c a IH]; [reflexivity|]. cbn [app]. destruct (N.eqb_spec c 13) as [->|Hc].
  - destruct a as [|d a]; [reflexivity|]. cbn [app] in *. rewrite !unix_13. destruct (d =? 10); rewrite IH; reflexivity.
  - rewrite !unix_cons. destruct (N.eqb_spec c 13); [congruence|]. rewrite IH. reflexivity.
Qed.
Lemma unix_ends a : exists a', unix (a ++ [10]) = a' ++ [10].
Proof.
  induction a as [|c a (a' & IH)]; [exists []; reflexivity|]. cbn [app]. destruct (N.eqb_spec c 13) as [->|Hc].
  - destruct a as [|d a]; [exists []; reflexivity|]. cbn [app] in *. rewrite unix_13, IH. destruct (d =? 10); [eauto|]. exists (10 :: a'). reflexivity.
  - rewrite unix_cons. destruct (N.eqb_spec c 13); [congruence|]. rewrite IH. exists (c :: a'). reflexivity.
Qed.
Lemma lines_mid a x : lines (a ++ 10 :: x) = lines a ++ lines x.
Proof.
  induction a as [|c a IH]; [reflexivity|]. cbn [app]. rewrite !lines_cons. destruct (lines_some a) as (l & ls & E). rewrite IH, E. destruct (c =? 10); reflexivity.
Qed.
Lemma blank_out_app a b : b <> [] -> blank_out (a ++ b) = map (fun l => if blank_line l then [] else l) a ++ blank_out b.
Proof.
  intros Hb. induction a as [|l a IH]; [reflexivity|]. cbn [app map]. rewrite <- IH. destruct (a ++ b) eqn:E; [|reflexivity].
  destruct a; [cbn in E; congruence|discriminate].
Qed.
Lemma blank_no l : blank_line l = true -> ~ In 10 l /\ ~ In 13 l.
Proof. unfold blank_line. rewrite forallb_forall. intros H. split; intros F; apply H in F; discriminate. Qed.
Lemma blank_between W T fuel c a l b : blank_line l = true -> ~ blank (a ++ b) ->
  parse W T fuel c (a ++ [10] ++ l ++ [10] ++ b) = parse W T fuel c (a ++ [10] ++ [10] ++ b).
Proof.
  intros Hl Hb. apply parse_tidy.
  { intros F. apply Hb. unfold blank in *. rewrite !Forall_app in *. tauto. }
  destruct (blank_no l Hl) as [H10 H13]. unfold tidy. f_equal. cbn [app]. rewrite (unix_mid a (l ++ 10 :: b)), (unix_mid a (10 :: b)). destruct (unix_ends a) as (a' & ->).
  rewrite unix_plain by auto. rewrite <- !app_assoc. cbn [app].
  change (unix (10 :: b)) with (10 :: unix b). change (unix (10 :: b)) with (10 :: unix b). rewrite !lines_mid.
  assert (lines l = [l]) as -> by (rewrite <- (app_nil_r l) at 1; rewrite lines_plain by auto; cbn; rewrite app_nil_r; reflexivity).
  rewrite lines_cons. destruct (lines_some (unix b)) as (x & xs & ->). cbn [N.eqb Pos.eqb app].
  rewrite !blank_out_app by discriminate. f_equal. f_equal.
  change (blank_out (l :: x :: xs)) with ((if blank_line l then [] else l) :: blank_out (x :: xs)). rewrite Hl. reflexivity.
Qed.
(** Outer newlines. *)
Lemma lines_newlines n t : lines (newlines n ++ t) = repeat [] n ++ lines t.
Proof. induction n; [reflexivity|]. cbn [newlines repeat app]. rewrite lines_cons. cbn [N.eqb Pos.eqb]. fold (newlines n). rewrite IHn. reflexivity. Qed.
Lemma lines_newlines_end n : forall t, lines (t ++ newlines n) = lines t ++ repeat [] n.
Proof.
  induction n; intros t; [cbn; rewrite !app_nil_r; reflexivity|]. change (newlines (S n)) with (10 :: newlines n). rewrite lines_mid.
  rewrite <- (app_nil_r (newlines n)), lines_newlines. cbn [lines repeat]. f_equal. clear. induction n; [reflexivity|]. cbn. rewrite IHn. reflexivity.
Qed.
Lemma unlines_app a b : a <> [] -> b <> [] -> unlines (a ++ b) = unlines a ++ 10 :: unlines b.
Proof.
  induction a as [|l a IH]; intros Ha Hb; [congruence|]. destruct a as [|x a].
  - cbn [app]. rewrite unlines_cons by auto. reflexivity.
  - change ((l :: x :: a) ++ b) with (l :: (x :: a) ++ b). rewrite unlines_cons by discriminate. rewrite IH by (auto; discriminate).
    rewrite (unlines_cons l (x :: a)) by discriminate. rewrite <- app_assoc. reflexivity.
Qed.
Lemma unlines_empty n : unlines (repeat [] (S n)) = newlines n.
Proof. induction n; [reflexivity|]. change (repeat (@nil N) (S (S n))) with ([] :: repeat (@nil N) (S n)). rewrite unlines_cons by discriminate. rewrite IHn. reflexivity. Qed.
Lemma map_blank_empty n : map (fun l : str => if blank_line l then [] else l) (repeat [] n) = repeat [] n.
Proof. induction n; [reflexivity|]. cbn. f_equal. exact IHn. Qed.
Lemma blank_out_last a l : blank_line l = false \/ l = [] -> blank_out (a ++ [l]) = map (fun l => if blank_line l then [] else l) (a ++ [l]).
Proof. intros H. rewrite blank_out_app by discriminate. rewrite map_app. f_equal. cbn. destruct H as [-> | ->]; reflexivity. Qed.
Lemma no_outer_more n k m : no_outer (newlines n ++ m ++ newlines k) = no_outer m.
Proof.
  destruct (outer_split m) as (n' & m' & k' & -> & H & _). rewrite (no_outer_split n' m' k') by auto.
  assert (forall i j, newlines i ++ newlines j = newlines (i + j)) as E by (intros i j; unfold newlines; rewrite repeat_app; reflexivity).
  replace (newlines n ++ (newlines n' ++ m' ++ newlines k') ++ newlines k) with (newlines (n + n') ++ m' ++ newlines (k' + k)).
  - apply no_outer_split; auto.
  - rewrite <- !E, <- !app_assoc. reflexivity.
Qed.
Lemma unix_newlines_end n t : exists k, unix (t ++ newlines n) = unix t ++ newlines k.
Proof.
  destruct n as [|n]; [exists O; cbn; rewrite !app_nil_r; reflexivity|]. change (newlines (S n)) with (10 :: newlines n). rewrite unix_mid.
  assert (unix (newlines n) = newlines n) as -> by (rewrite <- (app_nil_r (newlines n)), unix_plain by (intros F; apply in_newlines in F; discriminate); cbn; rewrite app_nil_r; reflexivity).
  assert (exists j, unix (t ++ [10]) = unix t ++ newlines j) as (j & ->).
  { induction t as [|c t (j & IH)]; [exists 1%nat; reflexivity|]. cbn [app]. destruct (N.eqb_spec c 13) as [->|Hc].
    - destruct t as [|d t]; [exists O; reflexivity|]. cbn [app] in *. exists j. rewrite !unix_13, IH. destruct (d =? 10); reflexivity.
    - exists j. rewrite !unix_cons. destruct (N.eqb_spec c 13); [congruence|]. rewrite IH. reflexivity. }
  exists (j + n)%nat. rewrite <- app_assoc. unfold newlines. rewrite <- repeat_app. reflexivity.
Qed.
Lemma tidy_outer n t k : blank_line (last_line t) = false \/ last_line t = [] -> tidy (newlines n ++ t ++ newlines k) = tidy t.
Proof.
  intros H. unfold tidy. rewrite unix_plain by (intros F; apply in_newlines in F; discriminate). destruct (unix_newlines_end k t) as (k' & ->).
  rewrite lines_newlines, lines_newlines_end. unfold last_line in H. destruct (lines_some (unix t)) as (l & ls & E). rewrite E in *.
  destruct (exists_last (l := l :: ls)) as (a & z & Ea); [discriminate|]. rewrite Ea in *. rewrite last_last in H.
  assert (forall b, b <> [] -> unlines (repeat [] n ++ b) = newlines n ++ unlines b) as U.
  { clear. intros b Hb. induction n; [reflexivity|]. cbn [repeat app newlines]. rewrite unlines_cons by (destruct n; [auto|discriminate]). rewrite IHn. reflexivity. }
  assert (blank_out ((a ++ [z]) ++ repeat [] k') = blank_out (a ++ [z]) ++ repeat [] k') as E2.
  { destruct k' as [|k']; [cbn [repeat]; rewrite !app_nil_r; reflexivity|]. rewrite blank_out_app by discriminate. rewrite (blank_out_last a z) by auto. f_equal.
    clear. induction k'; [reflexivity|]. cbn [repeat] in *. change (blank_out ([] :: [] :: repeat [] k')) with ([] :: blank_out ([] :: repeat [] k')). rewrite IHk'. reflexivity. }
  rewrite (blank_out_app (repeat [] n)) by (destruct a; discriminate). rewrite map_blank_empty, E2.
  assert (blank_out (a ++ [z]) <> []) as Hne by (rewrite blank_out_app by discriminate; cbn; destruct (map (fun l0 : str => if blank_line l0 then [] else l0) a); discriminate).
  rewrite U by (destruct (blank_out (a ++ [z])); [congruence|discriminate]).
  destruct k' as [|k'].
  - cbn [repeat]. rewrite app_nil_r. rewrite <- (no_outer_more n 0 (unlines (blank_out (a ++ [z])))). cbn [newlines repeat]. rewrite app_nil_r. reflexivity.
  - rewrite unlines_app by (auto; discriminate). rewrite unlines_empty. apply (no_outer_more n (S k')).
Qed.
Lemma outer_newlines W T fuel c n t k : ~ blank t -> blank_line (last_line t) = false \/ last_line t = [] ->
  parse W T fuel c (newlines n ++ t ++ newlines k) = parse W T fuel c t.
Proof. intros Hb H. symmetry. apply parse_tidy; auto. symmetry. apply tidy_outer; auto. Qed.
