(** The line of columns. *)
From Coq Require Import ZArith.
From Verif Require Import Str Unicode Regex RegexParse RegexSnips RegexTheory RegexAuto RegexGroups Lib ModelBase ModelHtml ModelUrl
  ModelAttrs ModelInline ModelParser SpecRegex ProofRegex SpecHtml ProofHtml ProofCharref SpecParse ProofParse SpecPlain ProofPlain ProofParas ProofText ProofPieces ProofWeave ProofListText ProofTags ProofTableRows SpecColumns. From Verif Require Import ProofTables.
From Verif Require ProofItems.
#[local] Arguments u : simpl never.

Definition nd := ProofItems.nd.
Lemma dec_nd n : exists d w, dec n = d :: w /\ in_cls nd d = true /\ forallb (in_cls nd) w = true.
Proof.
  destruct (dec_spec n) as (Hn & Hd & _). destruct (dec n) as [|d w]; [congruence|]. exists d, w. split; [reflexivity|]. cbn [forallb] in Hd. apply andb_prop in Hd as [Hd Hw].
  split; [apply ProofItems.digit_nd; exact Hd|]. apply forallb_forall. intros y Hy. apply ProofItems.digit_nd. rewrite forallb_forall in Hw. apply Hw, Hy.
Qed.
Lemma dec_chars n c : In c (dec n) -> 48 <= c <= 57.
Proof. intros H. pose proof (dec_digits n) as E. rewrite Forall_forall in E. exact (E _ H). Qed.
(** ** One description *)
Definition between (k : column) : str := match k_span k, k_width k with Some _, Some _ => [32] | _, _ => [] end.
Definition column_text (k : column) : str := span_mark (k_span k) ++ between k ++ width_text (k_width k).
Definition col_cls : cls := mk_cls false [CRange 48 57; CRange 92 92; CRange 32 32].
Definition col_auto : auto := mk_auto [(1%nat, col_cls, 1%nat)] 1 [1%nat].
Lemma col_accepts t : forallb (in_cls col_cls) t = true -> accepts col_auto t.
Proof.
  unfold accepts. change (au_start col_auto) with 1%nat. induction t as [|c t IH]; intros H; [apply SufNil; left; reflexivity|]. cbn [forallb] in H. apply andb_prop in H as [H1 H2].
  eapply SufCons; [left; reflexivity|exact H1|apply IH; exact H2].
Qed.
Lemma digit_col c : 48 <= c <= 57 -> in_cls col_cls c = true.
Proof. intros H. unfold in_cls, col_cls. cbn [c_neg c_items existsb in_item]. destruct (N.leb_spec 48 c), (N.leb_spec c 57); (reflexivity || lia). Qed.
Lemma dec_col n : forallb (in_cls col_cls) (dec n) = true.
Proof. apply forallb_forall. intros c Hc. apply digit_col. eapply dec_chars; eauto. Qed.
Lemma column_col k : forallb (in_cls col_cls) (column_text k) = true.
Proof. unfold column_text, between, span_mark, width_text. destruct (k_span k), (k_width k); cbn [app]; repeat (rewrite ?forallb_app; cbn [forallb app]; rewrite ?dec_col); reflexivity. Qed.
Lemma col_never : forallb (never col_auto) [rx_re ATTR_STYLE_RE; rx_re ATTR_LANG_RE; rx_re ATTR_ACLASS_RE; rx_re ATTR_PADDING_LEFT_RE; rx_re ATTR_PADDING_RIGHT_RE; rx_re ATTR_HALIGN_RE] = true.
Proof. vm_compute. reflexivity. Qed.
Definition digits : re := RSeq (RCls nd) (RStar true (RCls nd)).
Lemma col_shape : exists sp, rx_re ATTR_COL_RE = RSeq (RAssert SOT) (RSeq (RAlt (RSeq (RCls (one 92)) (RSeq (RGroup 1 digits) (RAlt (RCls (one 46)) REps))) REps) (RSeq (RStar true (RCls sp)) (RAlt (RGroup 2 digits) REps))) /\
  in_cls sp 32 = true /\ forallb (fun c => negb (in_cls sp c)) (u "0123456789") = true.
Proof. eexists. split; [reflexivity|]. split; vm_compute; reflexivity. Qed.
Lemma digits_take n before rest cs k x : stops nd rest -> k (mk_mst (rev (dec n) ++ before) rest cs) = Some x -> m digits (mk_mst before (dec n ++ rest) cs) k = Some x.
Proof.
  intros Hs Hk. destruct (dec_nd n) as (d & w & E & H1 & H2). rewrite E in *. unfold digits. cbn [app]. rewrite m_seq, m_cls, H1. apply m_star_greedy; [exact H2|exact Hs|]. cbn [rev] in Hk. rewrite <- app_assoc in Hk. exact Hk.
Qed.
Lemma digits_end n before cs k x : k (mk_mst (rev (dec n) ++ before) [] cs) = Some x -> m digits (mk_mst before (dec n) cs) k = Some x.
Proof. intros H. pose proof (digits_take n before [] cs k x I H) as R. rewrite app_nil_r in R. exact R. Qed.
Lemma col_hit k : k_span k <> None \/ k_width k <> None ->
  exists h, captures (rx_re ATTR_COL_RE) (column_text k) = Some h /\ cap_opt 1 h = option_map dec (k_span k) /\ cap_opt 2 h = option_map dec (k_width k).
Proof.
  intros Hk. destruct col_shape as (sp & Es & H32 & Hd). rewrite forallb_forall in Hd.
  assert (Sp : forall n, exists d w, dec n = d :: w /\ in_cls sp d = false).
  { intros n. destruct (dec_nd n) as (d & w & E & _). exists d, w. split; [exact E|]. apply negb_true_iff, Hd. assert (48 <= d <= 57) by (apply (dec_chars n); rewrite E; left; reflexivity).
    assert (d = 48 \/ d = 49 \/ d = 50 \/ d = 51 \/ d = 52 \/ d = 53 \/ d = 54 \/ d = 55 \/ d = 56 \/ d = 57) as G by lia. change (u "0123456789") with [48; 49; 50; 51; 52; 53; 54; 55; 56; 57]. cbn [In]. intuition (subst; auto). }
  assert (Last : forall n before cs, exists b, m (RAlt (RGroup 2 digits) REps) (mk_mst before (dec n) cs) Some = Some (mk_mst b [] ((2%nat, (dec n, [])) :: cs))).
  { intros n before cs. eexists. apply m_alt_l. rewrite m_group. apply digits_end. cbn [m_before m_after m_caps]. reflexivity. }
  assert (Blank : forall n before cs (k : mst -> option mst) x w, forallb (in_cls sp) w = true -> k (mk_mst (rev w ++ before) (dec n) cs) = Some x -> m (RStar true (RCls sp)) (mk_mst before (w ++ dec n) cs) k = Some x).
  { intros n before cs k0 x w Hw H0. apply m_star_greedy; [exact Hw| |exact H0]. destruct (Sp n) as (d & v & -> & Hv). exact Hv. }
  unfold column_text, between. destruct k as [[n|] [w|]]; cbn [k_span k_width span_mark width_text app option_map] in *.
  - assert (exists b, match_at (rx_re ATTR_COL_RE) [] (92 :: dec n ++ 32 :: dec w) = Some (mk_mst b [] [(2%nat, (dec w, [])); (1%nat, (dec n ++ 32 :: dec w, 32 :: dec w))])) as (b & E).
    { edestruct (Last w) as (b & L). exists b. unfold match_at. rewrite Es, m_seq, m_assert. cbn [assert_holds is_empty]. rewrite m_seq. apply m_alt_l. rewrite m_seq, m_cls, in_one, N.eqb_refl, m_seq, m_group. apply digits_take; [reflexivity|]. cbn [m_before m_after m_caps].
      rewrite m_alt_r by (rewrite m_cls, in_one; reflexivity). rewrite m_eps, m_seq. apply (Blank w _ _ _ _ [32]); [cbn [forallb]; rewrite H32; reflexivity|]. exact L. }
    apply captures_first in E. eexists. split; [exact E|]. unfold cap_opt, mk_hit_of, cap_text. cbn [h_caps m_caps find_cap Nat.eqb option_map]. split; f_equal; [apply cap_str_app|]. rewrite <- (app_nil_r (dec w)) at 1. apply cap_str_app.
  - rewrite app_nil_r. assert (exists b, match_at (rx_re ATTR_COL_RE) [] (92 :: dec n) = Some (mk_mst b [] [(1%nat, (dec n, []))])) as (b & E).
    { eexists. unfold match_at. rewrite Es, m_seq, m_assert. cbn [assert_holds is_empty]. rewrite m_seq. apply m_alt_l. rewrite m_seq, m_cls, in_one, N.eqb_refl, m_seq, m_group. rewrite <- (app_nil_r (dec n)) at 1. apply digits_take; [exact I|]. cbn [m_before m_after m_caps].
      rewrite m_alt_r by (rewrite m_cls_nil; reflexivity). rewrite m_eps, m_seq. apply (m_star_greedy sp _ _ [] _ [] _); [reflexivity|exact I|]. cbn [rev app]. rewrite m_alt_r by (rewrite m_group; unfold digits; rewrite m_seq, m_cls_nil; reflexivity). rewrite m_eps. reflexivity. }
    apply captures_first in E. eexists. split; [exact E|]. unfold cap_opt, mk_hit_of, cap_text. cbn [h_caps m_caps find_cap Nat.eqb option_map]. split; [|reflexivity]. f_equal. rewrite <- (app_nil_r (dec n)) at 1. apply cap_str_app.
  - assert (exists b, match_at (rx_re ATTR_COL_RE) [] (dec w) = Some (mk_mst b [] [(2%nat, (dec w, []))])) as (b & E).
    { edestruct (Last w) as (b & L). exists b. unfold match_at. rewrite Es, m_seq, m_assert. cbn [assert_holds is_empty]. rewrite m_seq. rewrite m_alt_r.
      - rewrite m_eps, m_seq. apply (Blank w _ _ _ _ []); [reflexivity|]. exact L.
      - destruct (dec_nd w) as (d & v & Ed & _). rewrite Ed, m_seq, m_cls, in_one. assert (48 <= d <= 57) by (apply (dec_chars w); rewrite Ed; left; reflexivity). assert (d <> 92) as Q by lia. apply N.eqb_neq in Q. rewrite Q. reflexivity. }
    apply captures_first in E. eexists. split; [exact E|]. unfold cap_opt, mk_hit_of, cap_text. cbn [h_caps m_caps find_cap Nat.eqb option_map]. split; [reflexivity|]. f_equal. rewrite <- (app_nil_r (dec w)) at 1. apply cap_str_app.
  - destruct Hk; congruence.
Qed.
Lemma column_parse k r s : block_attributes_parse (column_text k) ElCol true r s = Ret (mk_ba None None None None None None (option_map dec (k_span k)) (option_map dec (k_width k))) s.
Proof.
  unfold block_attributes_parse. destruct (is_empty (column_text k)) eqn:Ee.
  { destruct k as [[n|] [w|]]; unfold column_text, between in Ee; cbn [k_span k_width span_mark width_text app is_empty] in Ee; try discriminate; [|reflexivity]. destruct (dec_nd w) as (d & v & Ed & _). rewrite Ed in Ee. discriminate. }
  assert (Hk : k_span k <> None \/ k_width k <> None) by (destruct k as [[n|] [w|]]; [left; discriminate|left; discriminate|right; discriminate|discriminate]).
  destruct (col_hit k Hk) as (h & E & E1 & E2). pose proof (col_accepts _ (column_col k)) as Ha.
  assert (N : forall q, In q [rx_re ATTR_STYLE_RE; rx_re ATTR_LANG_RE; rx_re ATTR_ACLASS_RE; rx_re ATTR_PADDING_LEFT_RE; rx_re ATTR_PADDING_RIGHT_RE; rx_re ATTR_HALIGN_RE] -> captures q (column_text k) = None).
  { intros q Hq. apply captures_no_match. eapply never_in; [exact col_never|exact Ha|exact Hq]. }
  cbn [el_is_td el_is_col]. unfold valign_style. cbn [el_is_td_tr]. unfold bind at 1. unfold ret at 1.
  rewrite (N (rx_re ATTR_STYLE_RE)) by (cbn [In]; tauto). assert (Q : forall (A : Type) (x : A), (if r then x else x) = x) by (destruct r; reflexivity). rewrite Q.
  rewrite (N (rx_re ATTR_LANG_RE)) by (cbn [In]; tauto). rewrite (N (rx_re ATTR_ACLASS_RE)) by (cbn [In]; tauto). rewrite (N (rx_re ATTR_PADDING_LEFT_RE)) by (cbn [In]; tauto). rewrite (N (rx_re ATTR_PADDING_RIGHT_RE)) by (cbn [In]; tauto).
  unfold halign_style. rewrite (N (rx_re ATTR_HALIGN_RE)) by (cbn [In]; tauto). unfold bind, ret. rewrite E, E1, E2. reflexivity.
Qed.

(** ** The line *)
Definition first_piece (k : column) : str := span_mark (k_span k) ++ [32] ++ width_text (k_width k).
Definition next_piece (k : column) : str := match k_span k with Some _ => span_mark (k_span k) ++ [32] | None => [] end ++ width_text (k_width k).
Lemma dec_ws n : (exists c r, dec n = c :: r /\ is_ws c = false) /\ (exists r c, dec n = r ++ [c] /\ is_ws c = false).
Proof.
  assert (W : forall c, 48 <= c <= 57 -> is_ws c = false).
  { intros c Hc. assert (c = 48 \/ c = 49 \/ c = 50 \/ c = 51 \/ c = 52 \/ c = 53 \/ c = 54 \/ c = 55 \/ c = 56 \/ c = 57) as G by lia. intuition (subst; reflexivity). }
  split.
  - destruct (dec_nd n) as (d & w & E & _). exists d, w. split; [exact E|]. apply W, (dec_chars n). rewrite E. left. reflexivity.
  - destruct (dec_last n) as (w & d & E & _). exists w, d. split; [exact E|]. apply W, (dec_chars n). rewrite E, in_app_iff. right. left. reflexivity.
Qed.
Lemma trim_id t : match t with [] => True | c :: _ => is_ws c = false end -> (t = [] \/ exists r c, t = r ++ [c] /\ is_ws c = false) -> trim t = t.
Proof.
  intros H1 H2. unfold trim, trim_by. rewrite trim_start_by_id by exact H1. apply trim_end_by_id. intros r c E. destruct H2 as [->|(r' & c' & -> & H)]; [destruct r; discriminate|]. apply app_inj_tail in E as [_ <-]. exact H.
Qed.
Lemma column_trim k : trim (column_text k) = column_text k.
Proof.
  apply trim_id; unfold column_text, between; destruct k as [[n|] [w|]]; cbn [k_span k_width span_mark width_text app].
  - reflexivity.
  - reflexivity.
  - destruct (proj1 (dec_ws w)) as (c & r & -> & H). exact H.
  - exact I.
  - right. destruct (proj2 (dec_ws w)) as (r & c & -> & H). exists (92 :: dec n ++ 32 :: r), c. split; [|exact H]. cbn [app]. rewrite <- app_assoc. reflexivity.
  - right. rewrite app_nil_r. destruct (proj2 (dec_ws n)) as (r & c & -> & H). exists (92 :: r), c. split; [reflexivity|exact H].
  - right. destruct (proj2 (dec_ws w)) as (r & c & -> & H). eauto.
  - left. reflexivity.
Qed.
Lemma trim_blank t : trim (32 :: t) = trim t. Proof. reflexivity. Qed.
Lemma trim_blank_end t : trim (t ++ [32]) = trim t.
Proof. unfold trim. apply trim_by_app. reflexivity. Qed.
Lemma first_trim k : trim (first_piece k) = column_text k.
Proof.
  rewrite <- (column_trim k). unfold first_piece, column_text, between. destruct k as [[n|] [w|]]; cbn [k_span k_width span_mark width_text app]; try reflexivity.
  rewrite app_nil_r. change (92 :: dec n ++ [32]) with ((92 :: dec n) ++ [32]). apply trim_blank_end.
Qed.
Lemma next_trim k : trim (next_piece k) = column_text k.
Proof.
  rewrite <- (column_trim k). unfold next_piece, column_text, between. destruct k as [[n|] [w|]]; cbn [k_span k_width span_mark width_text app]; rewrite <- ?app_assoc; try reflexivity.
  rewrite !app_nil_r. change (92 :: dec n ++ [32]) with ((92 :: dec n) ++ [32]). apply trim_blank_end.
Qed.
Lemma undot_app a b : replace_char (a ++ b) 46 [] = replace_char a 46 [] ++ replace_char b 46 [].
Proof. unfold replace_char. apply flat_map_app. Qed.
Lemma undot_dec n : replace_char (dec n) 46 [] = dec n.
Proof.
  assert (G : forall t, (forall c, In c t -> 48 <= c <= 57) -> replace_char t 46 [] = t).
  { unfold replace_char. induction t as [|c t IH]; intros H; [reflexivity|]. cbn [flat_map]. rewrite IH by (intros; apply H; right; auto). assert (c <> 46) as Hc by (specialize (H c (or_introl eq_refl)); lia). apply N.eqb_neq in Hc. rewrite Hc. reflexivity. }
  apply G. apply dec_chars.
Qed.
Lemma undot_span o : replace_char (span_mark o) 46 [] = span_mark o.
Proof. destruct o as [n|]; [|reflexivity]. cbn [span_mark]. change (92 :: dec n) with ([92] ++ dec n). rewrite undot_app, undot_dec. reflexivity. Qed.
Lemma undot_width o : replace_char (width_text o) 46 [] = width_text o.
Proof. destruct o as [n|]; [apply undot_dec|reflexivity]. Qed.
Lemma split_app a b c : ~ In c a -> split_char c (a ++ c :: b) = a :: split_char c b.
Proof.
  induction a as [|x a IH]; intros H; cbn [app split_char]; [rewrite N.eqb_refl; reflexivity|]. assert (x <> c) as Hx by (intros ->; apply H; left; reflexivity). apply N.eqb_neq in Hx. rewrite Hx.
  rewrite IH by (intros F; apply H; right; exact F). reflexivity.
Qed.
Lemma split_none a c : ~ In c a -> split_char c a = [a].
Proof.
  induction a as [|x a IH]; intros H; cbn [split_char]; [reflexivity|]. assert (x <> c) as Hx by (intros ->; apply H; left; reflexivity). apply N.eqb_neq in Hx. rewrite Hx.
  rewrite IH by (intros F; apply H; right; exact F). reflexivity.
Qed.
Lemma first_chars k c : In c (first_piece k) \/ In c (next_piece k) -> c = 92 \/ c = 32 \/ 48 <= c <= 57.
Proof.
  unfold first_piece, next_piece, span_mark, width_text. destruct k as [[n|] [w|]]; cbn [k_span k_width app]; rewrite ?app_nil_r; intros H;
    repeat (rewrite ?in_app_iff in H; cbn [In] in H); intuition (subst; try tauto; try (right; right; eapply dec_chars; eassumption)).
Qed.
Lemma split_columns k ks : split_char 124 (replace_char (span_mark (k_span k) ++ u ". " ++ width_text (k_width k) ++ flat_map further_column ks) 46 []) = first_piece k :: map next_piece ks.
Proof.
  change (u ". ") with [46; 32]. rewrite !undot_app, undot_span, undot_width. change (replace_char [46; 32] 46 []) with [32].
  assert (E : replace_char (flat_map further_column ks) 46 [] = flat_map (fun k => 124 :: next_piece k) ks).
  { induction ks as [|j ks IH]; [reflexivity|]. cbn [flat_map]. rewrite undot_app, IH. f_equal. unfold further_column, next_piece. change (124 :: match k_span j with Some _ => span_mark (k_span j) ++ u ". " | None => [] end ++ width_text (k_width j)) with ([124] ++ match k_span j with Some _ => span_mark (k_span j) ++ u ". " | None => [] end ++ width_text (k_width j)).
    rewrite !undot_app, undot_width. change (replace_char [124] 46 []) with [124]. cbn [app]. do 2 f_equal. destruct (k_span j); [|reflexivity]. change (u ". ") with [46; 32]. rewrite undot_app, undot_span. reflexivity. }
  rewrite E. clear E. rewrite !app_assoc. rewrite <- (app_assoc _ [32]). fold (first_piece k).
  assert (N : forall p, (forall c, In c p -> c = 92 \/ c = 32 \/ 48 <= c <= 57) -> ~ In 124 p) by (intros p H F; apply H in F; intuition (try discriminate; lia)).
  assert (G : forall p, ~ In 124 p -> split_char 124 (p ++ flat_map (fun k => 124 :: next_piece k) ks) = p :: map next_piece ks).
  { induction ks as [|j ks IH]; intros p Hp; cbn [flat_map map]; [rewrite app_nil_r; apply split_none; exact Hp|]. rewrite <- app_comm_cons. rewrite split_app by exact Hp. rewrite IH; [reflexivity|]. apply N. intros c Hc. eapply first_chars. right. exact Hc. }
  apply G. apply N. intros c Hc. eapply first_chars. left. exact Hc.
Qed.
Lemma column_string k : ba_to_string (mk_ba None None None None None None (option_map dec (k_span k)) (option_map dec (k_width k))) = column_atts k.
Proof.
  unfold ba_to_string, ba_html_attrs, column_atts. cbn [ba_width ba_style ba_span ba_rowspan ba_lang ba_id ba_colspan ba_class attr_add].
  assert (A1 : forall v l, attr_insert (u "span") v l = (u "span", v) :: l -> True) by auto. clear A1.
  assert (S0 : forall v, attr_insert (u "span") v [] = [(u "span", v)]) by reflexivity. assert (W0 : forall v, attr_insert (u "width") v [] = [(u "width", v)]) by reflexivity.
  assert (W1 : forall x v, attr_insert (u "width") v [(u "span", x)] = [(u "span", x); (u "width", v)]) by (intros; vm_compute; reflexivity).
  assert (Q : forall key n, attr_str (key, dec n) = 32 :: key ++ 61 :: 34 :: dec n ++ [34]) by (intros key n; unfold attr_str; cbn [fst snd]; rewrite ProofLinked.quote_inert by apply dec_inert; reflexivity).
  destruct k as [[n|] [w|]]; cbn [k_span k_width option_map attr_add]; rewrite ?S0, ?W0, ?W1; unfold attrs_to_string; cbn [flat_map]; rewrite ?Q, ?app_nil_r; reflexivity.
Qed.
Section One.
Variable T : textile.
Definition one_tag (f : bool) (k : column) : str := tab ++ u "<col" ++ (if f then u "group" ++ column_atts k ++ u ">" else column_atts k ++ u " />") ++ nl.
Lemma next_tags ks s : col_tags T false (map next_piece ks) s = Ret (flat_map (one_tag false) ks) s.
Proof.
  induction ks as [|k ks IH]; [reflexivity|]. cbn [map col_tags]. unfold bind. rewrite next_trim, column_parse, IH. unfold ret. f_equal. rewrite column_string. cbn [flat_map]. unfold one_tag. rewrite <- !app_assoc. reflexivity.
Qed.
Lemma all_tags k ks s : col_tags T true (first_piece k :: map next_piece ks) s = Ret (one_tag true k ++ flat_map (one_tag false) ks) s.
Proof.
  cbn [col_tags]. unfold bind. rewrite first_trim, column_parse, next_tags. unfold ret. f_equal. rewrite column_string. unfold one_tag. rewrite <- !app_assoc. reflexivity.
Qed.
Lemma g_shape : exists c, rx_re COLGROUP_RE = RSeq (RAssert SOL) (RSeq (RCls (one 124)) (RSeq (RCls (one 58)) (RGroup 1 (RSeq (RStar true span_body) (RSeq (RStar true align_body) (RSeq c (RSeq (RCls (one 46)) (RSeq (RCls (one 32)) (RStar true (RCls (mk_cls true [CRange 10 10])))))))))))
  /\ skips c 46 = true.
Proof. eexists. split; [reflexivity|]. vm_compute; reflexivity. Qed.
Definition further (k : column) (ks : list column) : str := width_text (k_width k) ++ flat_map further_column ks.
Lemma further_chars k ks c : In c (further k ks) -> c = 92 \/ c = 32 \/ c = 46 \/ c = 124 \/ 48 <= c <= 57.
Proof.
  unfold further. rewrite in_app_iff, in_flat_map. intros [H|(j & _ & H)].
  - destruct (k_width k); cbn [width_text] in H; [|destruct H]. right; right; right; right. eapply dec_chars; eauto.
  - unfold further_column, span_mark, width_text in H. change (u ". ") with [46; 32] in H. destruct j as [[n|] [w|]]; cbn [k_span k_width] in H; repeat (rewrite ?in_app_iff in H; cbn [In app] in H); intuition (subst; try tauto; try (right; right; right; right; eapply dec_chars; eassumption)).
Qed.
Lemma group_hit k ks rest : match rest with [] => True | c :: _ => c = 10 end ->
  exists h, captures (rx_re COLGROUP_RE) (columns_source k ks ++ rest) = Some h /\ cap_opt 1 h = Some (span_mark (k_span k) ++ u ". " ++ width_text (k_width k) ++ flat_map further_column ks).
Proof.
  intros Hr. destruct g_shape as (z & Es & Sz). fold (further k ks). set (w := further k ks). unfold columns_source. fold (further k ks). fold w. change (u ". ") with [46; 32]. change (u "|:") with [124; 58]. rewrite <- !app_assoc. cbn [app].
  assert (exists b, match_at (rx_re COLGROUP_RE) [] (124 :: 58 :: span_mark (k_span k) ++ 46 :: 32 :: w ++ rest) = Some (mk_mst b rest [(1%nat, (span_mark (k_span k) ++ 46 :: 32 :: w ++ rest, rest))])) as (b & E).
  { eexists. unfold match_at. rewrite Es, m_seq, m_assert. cbn [assert_holds is_empty]. rewrite m_seq, m_cls, in_one, N.eqb_refl, m_seq, m_cls, in_one, N.eqb_refl, m_group, m_seq.
    pose proof not_spans as D. rewrite forallb_forall in D. pose proof (D 46 (or_intror (or_intror (or_intror (or_intror (or_intror (or_intror (or_introl eq_refl)))))))) as D0. apply andb_prop in D0 as [D0 N0]. apply negb_true_iff in N0.
    assert (Ew : span_mark (k_span k) = opt_text (fun n => 92 :: dec n) (k_span k) ++ opt_text (fun n => 47 :: dec n) None) by (destruct (k_span k); cbn [span_mark opt_text]; rewrite app_nil_r; reflexivity).
    rewrite Ew. apply spans_run; [exact D0|exact N0|]. rewrite m_seq. apply (aligns_run None None); [|].
    { destruct (k_span k) as [n|]; cbn [opt_text app rev no_less]; [|discriminate]. rewrite app_nil_r. destruct (dec_last n) as (v & d & Ed & Hd). rewrite Ed. cbn [rev]. rewrite rev_app_distr. cbn [rev app no_less]. intros ->. discriminate. }
    cbn [opt_text app rev]. rewrite m_seq, (m_skip z) by exact Sz. rewrite m_seq, m_cls, in_one, N.eqb_refl, m_seq, m_cls, in_one, N.eqb_refl. apply m_star_greedy.
    - apply forallb_forall. intros c Hc. apply further_chars in Hc. unfold in_cls. cbn [c_neg c_items existsb in_item]. assert (c <> 10) as Q by (intuition (subst; try discriminate; lia)). destruct (N.leb_spec 10 c), (N.leb_spec c 10); try reflexivity. lia.
    - destruct rest; [exact I|]. subst. reflexivity.
    - cbn [m_before m_after m_caps]. reflexivity. }
  apply captures_first in E. eexists. split; [exact E|]. unfold cap_opt, mk_hit_of, cap_text. cbn [h_caps m_caps find_cap Nat.eqb option_map]. f_equal.
  change (span_mark (k_span k) ++ 46 :: 32 :: w ++ rest) with (span_mark (k_span k) ++ ([46; 32] ++ w) ++ rest). rewrite app_assoc. apply cap_str_app.
Qed.
Lemma find_at c a b : ~ In c a -> find_char c (a ++ c :: b) = Some (List.length a).
Proof.
  induction a as [|x a IH]; intros H; cbn [app find_char List.length]; [rewrite N.eqb_refl; reflexivity|]. assert (x <> c) as Hx by (intros ->; apply H; left; reflexivity). apply N.eqb_neq in Hx. rewrite Hx.
  rewrite IH by (intros F; apply H; right; exact F). reflexivity.
Qed.
Lemma columns_exact k ks rest s : match rest with [] => True | c :: _ => c = 10 end ->
  row_colgroup T (columns_source k ks ++ rest) s = Ret (columns_html k ks, match rest with [] => None | _ => Some (trim_start rest) end) s.
Proof.
  intros Hr. destruct (group_hit k ks rest Hr) as (h & E & E1). unfold row_colgroup. rewrite E. assert (X : capx 1 h s = Ret (span_mark (k_span k) ++ u ". " ++ width_text (k_width k) ++ flat_map further_column ks) s) by (unfold capx, of_opt; unfold cap_opt in E1; rewrite E1; reflexivity).
  unfold bind. rewrite X. clear X. rewrite split_columns, all_tags. unfold ret. f_equal. f_equal.
  - unfold columns_html, one_tag, tab, nl. change (u "	<colgroup") with ([9] ++ u "<col" ++ u "group"). change (u "	</colgroup>") with ([9] ++ u "</colgroup>"). rewrite <- !app_assoc. do 6 f_equal. f_equal. apply flat_map_ext. intros j. change (u "	<col") with ([9] ++ u "<col"). rewrite <- !app_assoc. reflexivity.
  - assert (N : ~ In 10 (columns_source k ks)).
    { unfold columns_source. fold (further k ks). change (u "|:") with [124; 58]. change (u ". ") with [46; 32]. cbn [app In]. rewrite in_app_iff. cbn [In]. intros [F|[F|[F|[F|[F|F]]]]]; try discriminate.
      - destruct (k_span k); cbn [span_mark In] in F; [|exact F]. destruct F as [F|F]; [discriminate|]. apply dec_chars in F. lia.
      - apply further_chars in F. intuition (try discriminate; lia). }
    destruct rest as [|c rest].
    + rewrite app_nil_r. rewrite ProofCharref.find_char_none by exact N. reflexivity.
    + subst c. rewrite find_at by exact N. rewrite skipn_app, skipn_all, Nat.sub_diag. reflexivity.
Qed.
Lemma no_caption k ks rest : captures (rx_re CAPTION_RE) (columns_source k ks ++ rest) = None.
Proof.
  apply captures_no_match. intros a b E. destruct p_shape as (z & Es & _). unfold match_at. rewrite Es, m_seq, m_assert. destruct a as [|x a]; [|destruct (rev (x :: a)) eqn:F; [apply (f_equal (@List.length N)) in F; rewrite rev_length in F; discriminate|reflexivity]].
  cbn [app] in E. subst b. unfold columns_source. change (u "|:") with [124; 58]. cbn [app rev assert_holds is_empty]. rewrite m_seq, m_cls. destruct (in_cls bar 124); [|reflexivity]. rewrite m_seq, m_cls, in_one. reflexivity.
Qed.
Lemma row_of_columns L first acc k ks s :
  table_row T L first acc (columns_source k ks) s = Ret (mk_ta (ta_caption acc) (ta_colgroup acc ++ columns_html k ks) (ta_content acc) (ta_rgrp acc) (ta_groups acc)) s.
Proof.
  unfold table_row. assert (trim_start (columns_source k ks) = columns_source k ks) as -> by reflexivity.
  assert (row_caption T first (columns_source k ks) s = Ret (None, Some (columns_source k ks)) s) as X.
  { unfold row_caption. pose proof (no_caption k ks []) as N. rewrite app_nil_r in N. rewrite N. destruct first; reflexivity. }
  unfold bind at 1. rewrite X. clear X. unfold bind at 1. pose proof (columns_exact k ks [] s I) as X. rewrite app_nil_r in X. rewrite X. reflexivity.
Qed.
End One.
