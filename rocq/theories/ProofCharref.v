(** Character references and percent-encoding. *)
From Verif Require Import Str Unicode Regex RegexParse RegexSnips ModelBase ModelHtml ModelUrl.
From Verif Require Import RegexTheory Lib SpecHtml ProofHtml.

(** ** Scanning with a pattern that starts with a fixed character *)
Lemma in_one c x : in_cls (cls_of [one c]) x = (x =? c).
Proof.
  unfold in_cls; cbn [cls_of one c_neg c_items existsb in_item]. rewrite xorb_false_l, orb_false_r. apply eq_true_iff_eq.
  rewrite andb_true_iff, !N.leb_le, N.eqb_eq. lia.
Qed.

Lemma scan_lit_prefix r : (forall before c rest, c <> 38 -> match_at r before (c :: rest) = None) ->
  forall a rest before last, ~ In 38 a ->
  scan r before (a ++ rest) O last =
  map Lit a ++ scan r (rev a ++ before) rest O (match a with [] => last | _ => false end).
Proof.
  intros Hr. induction a as [|c a IH]; intros rest before last Ha; [reflexivity|].
  cbn [app]. rewrite scan_cons, Hr by (intros ->; apply Ha; left; reflexivity).
  rewrite IH by (intros H; apply Ha; right; exact H). cbn [map app rev]. rewrite <- app_assoc. cbn [app].
  do 2 f_equal. destruct a; reflexivity.
Qed.

Lemma mapM_lits f a s : mapM (replace_segM f) (map Lit a) s = Ret (map (fun c => [c]) a) s.
Proof.
  induction a as [|c a IH]; [reflexivity|]. cbn [map]. rewrite mapM_cons. cbn [replace_segM].
  unfold ret at 1. rewrite IH. reflexivity.
Qed.
Lemma mapM_app {A B} (f : A -> M B) l1 : forall l2 s,
  mapM f (l1 ++ l2) s = match mapM f l1 s with
                        | Ret a s' => match mapM f l2 s' with
                                      | Ret b s'' => Ret (a ++ b) s''
                                      | Panic p => Panic p | Diverge => Diverge end
                        | Panic p => Panic p | Diverge => Diverge end.
Proof.
  induction l1 as [|x l1 IH]; intros l2 s.
  - cbn. destruct (mapM f l2 s); reflexivity.
  - cbn [app]. rewrite !mapM_cons. destruct (f x s) as [y s1| |]; auto. rewrite IH.
    destruct (mapM f l1 s1) as [ys s2| |]; auto. destruct (mapM f l2 s2); reflexivity.
Qed.
Lemma concat_singles (a : str) : List.concat (map (fun c => [c]) a) = a.
Proof. induction a; simpl; congruence. Qed.

(** ** CHARREF *)
Definition charref_body : re := match rx_re CHARREF with RSeq _ b => b | _ => REps end.
Lemma charref_no_match before c rest : c <> 38 -> match_at (rx_re CHARREF) before (c :: rest) = None.
Proof.
  intros H. change (rx_re CHARREF) with (RSeq (RCls (cls_of [one 38])) charref_body).
  unfold match_at. rewrite m_seq, m_cls, in_one. apply N.eqb_neq in H. rewrite H. reflexivity.
Qed.
Lemma charref_nil before : match_at (rx_re CHARREF) before [] = None.
Proof. reflexivity. Qed.

Definition dig : cls := cls_of [CRange 48 57].
Definition hexd : cls := cls_of [CRange 48 57; CRange 97 102; CRange 65 70].
Lemma in_dig c : in_cls dig c = is_digit_ascii c.
Proof. unfold in_cls, is_digit_ascii, dig; cbn [cls_of one c_neg c_items existsb in_item]. rewrite xorb_false_l, orb_false_r. reflexivity. Qed.
Lemma forallb_dig w : forallb (in_cls dig) w = forallb is_digit_ascii w.
Proof. induction w; simpl; [reflexivity|]. rewrite in_dig, IHw; reflexivity. Qed.
Definition is_hex (c : N) : bool := ModelHtml.between 48 57 c || ModelHtml.between 97 102 c || ModelHtml.between 65 70 c.
Lemma in_hexd c : in_cls hexd c = is_hex c.
Proof. unfold in_cls, is_hex, ModelHtml.between, hexd; cbn [cls_of one c_neg c_items existsb in_item]. rewrite xorb_false_l, orb_false_r, orb_assoc. reflexivity. Qed.
Lemma forallb_hexd w : forallb (in_cls hexd) w = forallb is_hex w.
Proof. induction w; simpl; [reflexivity|]. rewrite in_hexd, IHw; reflexivity. Qed.

Definition xX : cls := cls_of [one 120; one 88].
Lemma charref_shape : exists x, rx_re CHARREF =
  RSeq (RCls (cls_of [one 38])) (RGroup 1
    (RAlt (RSeq (RCls (cls_of [one 35]))
                (RSeq (RSeq (RCls dig) (RStar true (RCls dig))) (RAlt (RCls (cls_of [one 59])) REps)))
    (RAlt (RSeq (RCls (cls_of [one 35])) (RSeq (RCls xX)
                (RSeq (RSeq (RCls hexd) (RStar true (RCls hexd))) (RAlt (RCls (cls_of [one 59])) REps))))
          x))).
Proof. eexists; reflexivity. Qed.

Lemma charref_dec_match before w rest : w <> [] -> forallb is_digit_ascii w = true ->
  exists s, match_at (rx_re CHARREF) before (u "&#" ++ w ++ 59 :: rest) = Some s /\ m_after s = rest /\
            cap_text 1 (m_caps s) = Some (35 :: w ++ [59]).
Proof.
  intros Hne Hw. destruct w as [|d w]; [congruence|]. cbn [forallb] in Hw. apply andb_true_iff in Hw as [Hd Hw].
  eexists. split.
  - lits. cbn [app]. unfold match_at.
    destruct charref_shape as [x0 ->].
    rewrite m_seq, m_cls, in_one, N.eqb_refl. rewrite m_group. apply m_alt_l.
    rewrite m_seq, m_cls. rewrite in_one, N.eqb_refl.
    rewrite m_seq, m_seq, m_cls. rewrite in_dig, Hd.
    apply m_star_greedy with (c := dig) (w := w); [rewrite forallb_dig; exact Hw|reflexivity|].
    apply m_alt_l. rewrite m_cls. rewrite in_one, N.eqb_refl. reflexivity.
  - split; [reflexivity|]. unfold cap_text. cbn [m_caps find_cap Nat.eqb option_map]. f_equal.
    replace (35 :: d :: w ++ 59 :: rest) with ((35 :: d :: w ++ [59]) ++ rest)
      by (cbn [app]; rewrite <- app_assoc; reflexivity).
    rewrite cap_str_app. reflexivity.
Qed.

Lemma charref_hex_match before x w rest : x = 120 \/ x = 88 -> w <> [] -> forallb is_hex w = true ->
  exists s, match_at (rx_re CHARREF) before (u "&#" ++ x :: w ++ 59 :: rest) = Some s /\ m_after s = rest /\
            cap_text 1 (m_caps s) = Some (35 :: x :: w ++ [59]).
Proof.
  intros Hx Hne Hw. destruct w as [|d w]; [congruence|]. cbn [forallb] in Hw. apply andb_true_iff in Hw as [Hd Hw].
  eexists. split.
  - lits. cbn [app]. unfold match_at.
    destruct charref_shape as [x0 ->].
    rewrite m_seq, m_cls, in_one, N.eqb_refl. rewrite m_group.
    rewrite m_alt_r.
    2:{ rewrite m_seq, m_cls. rewrite in_one, N.eqb_refl.
        rewrite m_seq, m_seq, m_cls. rewrite in_dig.
        destruct Hx as [-> | ->]; reflexivity. }
    apply m_alt_l.
    rewrite m_seq, m_cls. rewrite in_one, N.eqb_refl.
    rewrite m_seq, m_cls.
    assert (Hxc : in_cls xX x = true)
      by (destruct Hx as [-> | ->]; reflexivity).
    rewrite Hxc.
    rewrite m_seq, m_seq, m_cls. rewrite in_hexd, Hd.
    apply m_star_greedy with (c := hexd) (w := w); [rewrite forallb_hexd; exact Hw|reflexivity|].
    apply m_alt_l. rewrite m_cls. rewrite in_one, N.eqb_refl. reflexivity.
  - split; [reflexivity|]. unfold cap_text. cbn [m_caps find_cap Nat.eqb option_map]. f_equal.
    replace (35 :: x :: d :: w ++ 59 :: rest) with ((35 :: x :: d :: w ++ [59]) ++ rest)
      by (cbn [app]; rewrite <- app_assoc; reflexivity).
    rewrite cap_str_app. reflexivity.
Qed.

(** A text with one reference in it. *)
Lemma unescape_one a r b s :
  ~ In 38 a -> ~ In 38 b -> (exists c, r = 38 :: c) ->
  (forall before rest, exists st, match_at (rx_re CHARREF) before (r ++ rest) = Some st /\ m_after st = rest /\
        cap_text 1 (m_caps st) = Some (tl r)) ->
  exists h, cap_text 1 (h_caps h) = Some (tl r) /\
  unescape (a ++ r ++ b) s =
  match replace_charref h s with
  | Ret x s' => Ret (a ++ x ++ b) s'
  | Panic p => Panic p
  | Diverge => Diverge
  end.
Proof.
  intros Ha Hb [c Hr] Hm.
  destruct (Hm (rev a ++ []) b) as (st & H1 & H2 & H3).
  exists (mk_hit_of (r ++ b) st). split; [exact H3|].
  unfold unescape.
  assert (Hc : contains_char 38 (a ++ r ++ b) = true).
  { apply contains_char_in. apply in_or_app; right; apply in_or_app; left. subst r; left; reflexivity. }
  rewrite Hc. unfold replace_allM, bind, segs.
  rewrite (scan_lit_prefix _ charref_no_match) by exact Ha.
  destruct (match_at_moved _ _ _ _ H1) as (w & H4 & H5 & H6). rewrite H2 in H4. apply app_inv_tail in H4. subst w.
  assert (E : forall last, scan (rx_re CHARREF) (rev a ++ []) (r ++ b) O last
              = Hit (mk_hit_of (r ++ b) st) :: scan (rx_re CHARREF) (rev r ++ rev a ++ []) b O true).
  { intros last. revert H1 H6. rewrite Hr. cbn [app]. intros H1 H6. rewrite scan_cons, H1.
    change (38 :: c ++ b) with ((38 :: c) ++ b) in *. rewrite H6, H2. reflexivity. }
  rewrite E. rewrite mapM_app, mapM_lits, mapM_cons. cbn [replace_segM].
  destruct (replace_charref (mk_hit_of (r ++ b) st) s) as [x s'| |]; auto.
  replace (scan (rx_re CHARREF) (rev r ++ rev a ++ []) b O true) with (map Lit b).
  - rewrite mapM_lits. unfold ret. rewrite concat_app, concat_singles. cbn [List.concat].
    rewrite concat_singles. reflexivity.
  - rewrite <- (app_nil_r b) at 2. rewrite (scan_lit_prefix _ charref_no_match) by exact Hb.
    replace (scan (rx_re CHARREF) (rev b ++ rev r ++ rev a ++ []) [] O (match b with [] => true | _ => false end)) with (@nil seg).
    + rewrite app_nil_r; reflexivity.
    + destruct b; [reflexivity|]. cbn [scan]. rewrite charref_nil. reflexivity.
Qed.

Lemma replace_charref_num h t n s : cap_text 1 (h_caps h) = Some (35 :: t) ->
  match t with
  | c :: r => if (c =? 120) || (c =? 88)
              then parse_hex (trim_end_matches 59 r)
              else parse_uint u32_max (trim_end_matches 59 t)
  | [] => None
  end = n ->
  replace_charref h s = match n with Some n => Ret (charref_of_num n) s | None => Panic BadNumber end.
Proof.
  intros H1 H2. unfold replace_charref, capx, bind. rewrite H1. cbn [of_opt]. unfold ret at 1. rewrite H2.
  destruct n; reflexivity.
Qed.

Lemma trim_end_semi w : (forall r c, w = r ++ [c] -> c <> 59) -> trim_end_matches 59 (w ++ [59]) = w.
Proof.
  intros H. unfold trim_end_matches, trim_end_by. rewrite rev_app_distr. cbn [rev app trim_start_by].
  change (59 =? 59) with true. cbn iota.
  fold (trim_end_by (N.eqb 59) w). apply trim_end_by_id. intros r c E. apply N.eqb_neq. specialize (H r c E). congruence.
Qed.

Lemma parse_uint_digits max w : w <> [] -> forallb is_digit_ascii w = true ->
  parse_uint max w = if dec_value w <=? max then Some (dec_value w) else None.
Proof.
  intros Hne Hw. unfold parse_uint. destruct w as [|c d]; [congruence|].
  assert (Hc : (c =? 43) = false).
  { apply digit_not_plus. simpl in Hw. apply andb_true_iff in Hw; tauto. }
  rewrite Hc, Hw. reflexivity.
Qed.

Lemma unescape_dec a w b s : ~ In 38 a -> ~ In 38 b -> w <> [] -> forallb is_digit_ascii w = true ->
  unescape (a ++ (u "&#" ++ w ++ u ";") ++ b) s =
  if dec_value w <=? u32_max then Ret (a ++ charref_of_num (dec_value w) ++ b) s else Panic BadNumber.
Proof.
  intros Ha Hb Hne Hw. lits. 
  destruct (unescape_one a ([38; 35] ++ w ++ [59]) b s Ha Hb) as (h & H1 & H2).
  - eexists; reflexivity.
  - intros before rest. destruct (charref_dec_match before w rest Hne Hw) as (st & G1 & G2 & G3).
    exists st. lits_in G1. cbn [app] in G1 |- *. rewrite <- app_assoc. cbn [app]. auto.
  - rewrite H2. cbn [app tl] in H1.
    rewrite (replace_charref_num h (w ++ [59]) (parse_uint u32_max w) s H1).
    + rewrite parse_uint_digits by auto. destruct (dec_value w <=? u32_max); reflexivity.
    + rewrite trim_end_semi.
      * destruct w as [|c w]; [congruence|]. cbn [app].
        assert (is_digit_ascii c = true) as Hc by (cbn in Hw; apply andb_true_iff in Hw; tauto).
        unfold is_digit_ascii in Hc. apply andb_true_iff in Hc. rewrite !N.leb_le in Hc.
        assert ((c =? 120) = false) as -> by (apply N.eqb_neq; lia).
        assert ((c =? 88) = false) as -> by (apply N.eqb_neq; lia). reflexivity.
      * intros r c ->. rewrite forallb_app in Hw. apply andb_true_iff in Hw as [_ Hw]. cbn in Hw.
        intros ->. discriminate.
Qed.

Lemma hex_value_spec : forall w acc, forallb is_hex w = true ->
  hex_value w acc = Some (fold_left (fun a c => a * 16 + hexdigit c) w acc).
Proof.
  induction w as [|c w IH]; intros acc Hw; [reflexivity|].
  cbn [forallb] in Hw. apply andb_true_iff in Hw as [Hc Hw]. cbn [hex_value fold_left].
  assert (hex_digit c = Some (hexdigit c)) as ->; [|apply IH; exact Hw].
  unfold is_hex in Hc. unfold hex_digit, hexdigit. unfold ModelHtml.between in *.
  destruct ((48 <=? c) && (c <=? 57)) eqn:E1.
  { apply andb_true_iff in E1 as [_ E1]. rewrite E1; reflexivity. }
  destruct ((97 <=? c) && (c <=? 102)) eqn:E2.
  { apply andb_true_iff in E2. rewrite !N.leb_le in E2.
    assert ((c <=? 57) = false) as -> by (apply N.leb_gt; lia).
    assert ((c <=? 70) = false) as -> by (apply N.leb_gt; lia). reflexivity. }
  cbn [orb] in Hc. rewrite Hc. apply andb_true_iff in Hc. rewrite !N.leb_le in Hc.
  assert ((c <=? 57) = false) as -> by (apply N.leb_gt; lia).
  assert ((c <=? 70) = true) as -> by (apply N.leb_le; lia). reflexivity.
Qed.

Lemma unescape_hex a x w b s : ~ In 38 a -> ~ In 38 b -> x = 120 \/ x = 88 -> w <> [] -> forallb is_hex w = true ->
  unescape (a ++ (u "&#" ++ [x] ++ w ++ u ";") ++ b) s =
  if hex_num w <=? u32_max then Ret (a ++ charref_of_num (hex_num w) ++ b) s else Panic BadNumber.
Proof.
  intros Ha Hb Hx Hne Hw. lits. 
  destruct (unescape_one a ([38; 35] ++ [x] ++ w ++ [59]) b s Ha Hb) as (h & H1 & H2).
  - eexists; reflexivity.
  - intros before rest. destruct (charref_hex_match before x w rest Hx Hne Hw) as (st & G1 & G2 & G3).
    exists st. lits_in G1. cbn [app] in G1 |- *. rewrite <- app_assoc. cbn [app]. auto.
  - rewrite H2. cbn [app tl] in H1.
    rewrite (replace_charref_num h (x :: w ++ [59]) (parse_hex w) s H1).
    + assert (parse_hex w = match hex_value w 0 with Some n => if n <=? u32_max then Some n else None | None => None end)
        as -> by (destruct w; [congruence|reflexivity]).
      rewrite hex_value_spec by auto. fold (hex_num w). destruct (hex_num w <=? u32_max); reflexivity.
    + rewrite trim_end_semi.
      * destruct Hx as [-> | ->]; reflexivity.
      * intros r c ->. rewrite forallb_app in Hw. apply andb_true_iff in Hw as [_ Hw]. cbn in Hw.
        intros ->. discriminate.
Qed.

Lemma nonchar_spec n : n <= 1114111 ->
  existsb (fun k => (n =? k * 65536 + 65534) || (n =? k * 65536 + 65535))
             [0; 1; 2; 3; 4; 5; 6; 7; 8; 9; 10; 11; 12; 13; 14; 15; 16] = (65534 <=? n mod 65536).
Proof.
  intros Hn. apply eq_true_iff_eq. rewrite existsb_exists, N.leb_le. split.
  - intros (k & _ & H). rewrite orb_true_iff, !N.eqb_eq in H. lia.
  - intros H. exists (n / 65536). split; [|rewrite orb_true_iff, !N.eqb_eq; lia].
    assert (Hk : n / 65536 <= 16) by lia. revert Hk. generalize (n / 65536) as k. clear. intros k Hk. cbn [In]. lia.
Qed.

Lemma charref_of_num_spec n : num_ref n (charref_of_num n).
Proof.
  destruct (N.eq_dec n 0) as [->|H0]; [constructor|].
  destruct (N.le_gt_cases 128 n) as [Ha|Ha], (N.le_gt_cases n 159) as [Hb|Hb].
  - pose proof (NR_win n (conj Ha Hb)) as H.
    replace (charref_of_num n) with [nth (N.to_nat (n - 128)) win1252 0]; auto. clear H.
    replace n with (128 + N.of_nat (N.to_nat (n - 128))) at 2 by lia.
    assert (Hk : (N.to_nat (n - 128) < 32)%nat) by lia. revert Hk. generalize (N.to_nat (n - 128)) as k. clear.
    intros k Hk. do 32 (destruct k as [|k]; [reflexivity|]). lia.
  - unfold charref_of_num. 
    assert (assocN n invalid_charrefs = None) as ->.
    { unfold invalid_charrefs. cbn [assocN]. repeat (destruct (_ =? n) eqn:E; [apply N.eqb_eq in E; lia|clear E]). reflexivity. }
    unfold is_invalid_codepoint, ModelHtml.between.
    destruct ((55296 <=? n) && (n <=? 57343)) eqn:E1; cbn [orb].
    { apply NR_surrogate. apply andb_true_iff in E1. rewrite !N.leb_le in E1. lia. }
    destruct (1114111 <? n) eqn:E2; [apply NR_high, N.ltb_lt, E2|].
    rewrite nonchar_spec by lia.
    match goal with |- num_ref n (if ?b then _ else _) => destruct b eqn:E3 end.
    + apply NR_nonchar; lia.
    + apply NR_char; lia.
  - unfold charref_of_num.
    assert (assocN n invalid_charrefs = if n =? 13 then Some 13 else None) as ->.
    { unfold invalid_charrefs. cbn [assocN]. 
      destruct (0 =? n) eqn:E; [lia|]. clear E. destruct (13 =? n) eqn:E.
      - apply N.eqb_eq in E. subst. reflexivity.
      - rewrite N.eqb_sym in E. rewrite E. clear E.
        repeat (destruct (_ =? n) eqn:E; [apply N.eqb_eq in E; lia|clear E]). reflexivity. }
    destruct (n =? 13) eqn:E13; [apply N.eqb_eq in E13; subst; apply NR_char; lia|].
    unfold is_invalid_codepoint, ModelHtml.between. rewrite nonchar_spec by lia.
    assert (((55296 <=? n) && (n <=? 57343) || (1114111 <? n)) = false) as -> by lia.
    match goal with |- num_ref n (if ?b then _ else _) => destruct b eqn:E3 end.
    + apply NR_control; lia.
    + apply NR_char; lia.
  - lia.
Qed.

(** ** Percent-encoding *)
Lemma utf8_bytes_byte c b : In b (utf8_bytes c) -> c < 1114112 -> b < 256.
Proof.
  unfold utf8_bytes. intros H Hc.
  destruct (c <? 128) eqn:E1; [|destruct (c <? 2048) eqn:E2; [|destruct (c <? 65536) eqn:E3]]; cbn [In] in H;
  rewrite ?N.ltb_lt, ?N.ltb_ge in *;
  repeat (destruct H as [<- | H]; [lia|]); destruct H.
Qed.
Lemma hex_val_upper n : n < 16 -> hex_val (hex_upper n) = Some n.
Proof.
  intros H. unfold hex_val, hex_upper. destruct (n <? 10) eqn:E.
  - apply N.ltb_lt in E. assert (((48 <=? 48 + n) && (48 + n <=? 57)) = true) as -> by lia. f_equal; lia.
  - apply N.ltb_ge in E. assert (((48 <=? 55 + n) && (55 + n <=? 57)) = false) as -> by lia.
    assert (((65 <=? 55 + n) && (55 + n <=? 70)) = true) as -> by lia. f_equal; lia.
Qed.
Lemma pct_decode_byte b s : b < 256 ->
  pct_decode (percent_byte b ++ s) = match pct_decode s with Some l => Some (b :: l) | None => None end.
Proof.
  intros Hb. unfold percent_byte. cbn [app pct_decode].
  rewrite !hex_val_upper by lia. destruct (pct_decode s); [|reflexivity].
  do 2 f_equal. lia.
Qed.
Lemma pct_decode_bytes l s : Forall (fun b => b < 256) l ->
  pct_decode (flat_map percent_byte l ++ s) = match pct_decode s with Some r => Some (l ++ r) | None => None end.
Proof.
  induction 1 as [|b l Hb _ IH]; cbn [flat_map app].
  - destruct (pct_decode s); reflexivity.
  - rewrite <- app_assoc, pct_decode_byte, IH by auto. destruct (pct_decode s); reflexivity.
Qed.
Lemma pct_decode_cons c s : c <> 37 ->
  pct_decode (c :: s) = match pct_decode s with Some l => Some (c :: l) | None => None end.
Proof.
  intros H. assert ((c =? 37) = false) as E by (apply N.eqb_neq; auto).
  destruct (pct_decode s) eqn:Es; cbn [pct_decode]; rewrite Es, E;
  destruct c as [|p]; try reflexivity; repeat (destruct p; try reflexivity); try congruence.
Qed.
Lemma pct_decode_encode s : Forall (fun c => c < 1114112) s ->
  pct_decode (percent_encode s) = Some (flat_map utf8_bytes s).
Proof.
  induction 1 as [|c s Hc _ IH]; [reflexivity|]. cbn [percent_encode flat_map]. fold (percent_encode s).
  destruct (is_ascii_alnum c) eqn:E.
  - unfold is_ascii_alnum, ModelHtml.between in E. cbn [app]. rewrite pct_decode_cons by lia. rewrite IH.
    assert (utf8_bytes c = [c]) as ->; [|reflexivity].
    unfold utf8_bytes. assert ((c <? 128) = true) as -> by lia. reflexivity.
  - rewrite pct_decode_bytes, IH; [reflexivity|].
    apply Forall_forall. intros b Hb. eapply utf8_bytes_byte; eauto.
Qed.

Lemma percent_encode_chars s c : Forall (fun c => c < 1114112) s ->
  In c (percent_encode s) -> 48 <= c <= 57 \/ 65 <= c <= 90 \/ 97 <= c <= 122 \/ c = 37.
Proof.
  intros Hs Hc. unfold percent_encode in Hc. apply in_flat_map in Hc as (x & Hx & Hc).
  destruct (is_ascii_alnum x) eqn:E.
  - destruct Hc as [<-|[]]. unfold is_ascii_alnum, ModelHtml.between in E. lia.
  - apply in_flat_map in Hc as (b & Hb & Hc). rewrite Forall_forall in Hs.
    pose proof (utf8_bytes_byte _ _ Hb (Hs _ Hx)). unfold percent_byte, hex_upper in Hc. cbn [In] in Hc.
    destruct (b / 16 <? 10) eqn:E1, (b mod 16 <? 10) eqn:E2; rewrite ?N.ltb_lt, ?N.ltb_ge in *; lia.
Qed.

Lemma find_char_none c s : ~ In c s -> find_char c s = None.
Proof.
  intros H. induction s as [|x s IH]; [reflexivity|]. cbn [find_char].
  destruct (x =? c) eqn:E; [exfalso; apply H; left; apply N.eqb_eq; exact E|].
  rewrite IH; [reflexivity|]. intros G; apply H; right; exact G.
Qed.

Lemma rfind_char_none c s : ~ In c s -> rfind_char c s = None.
Proof.
  intros H. induction s as [|x s IH]; [reflexivity|]. cbn [rfind_char].
  rewrite IH by (intros G; apply H; right; exact G).
  destruct (x =? c) eqn:E; [exfalso; apply H; left; apply N.eqb_eq; exact E|]. reflexivity.
Qed.

Lemma url_fallback W url j : Forall (fun c => c < 1114112) url ->
  w_parse W url = None -> w_join W url = None -> w_join W (percent_encode url) = Some j ->
  url_to_string (url_parse W url) = percent_encode url.
Proof.
  intros Hs H1 H2 H3. unfold url_parse, make_relative_url. rewrite H1, H2, H3. cbn [option_map].
  assert (Hn : forall c, c = 63 \/ c = 35 -> ~ In c (percent_encode url)).
  { intros c Hc Hin. pose proof (percent_encode_chars _ _ Hs Hin). lia. }
  unfold url_to_string. rewrite (find_char_none 63 (percent_encode url)) by (apply Hn; auto).
  rewrite (rfind_char_none 35 (percent_encode url)) by (apply Hn; auto).
  destruct (find_char 63 j), (rfind_char 35 j); reflexivity.
Qed.

(** ** The statements of the properties *)
Lemma charref_dec_prop a w b s : ~ In 38 a -> ~ In 38 b -> digit_text w ->
  (dec_value w <= 4294967295 -> exists x, num_ref (dec_value w) x /\
     unescape (a ++ (u "&#" ++ w ++ u ";") ++ b) s = Ret (a ++ x ++ b) s) /\
  (4294967295 < dec_value w -> unescape (a ++ (u "&#" ++ w ++ u ";") ++ b) s = Panic BadNumber).
Proof.
  intros Ha Hb [Hne Hw].
  assert (Hd : forallb is_digit_ascii w = true).
  { apply forallb_forall. rewrite Forall_forall in Hw. intros c Hc. apply Hw in Hc. unfold is_digit_ascii. lia. }
  rewrite (unescape_dec a w b s Ha Hb Hne Hd). unfold u32_max. split; intros H.
  - apply N.leb_le in H; rewrite H. exists (charref_of_num (dec_value w)). split; auto using charref_of_num_spec.
  - apply N.leb_gt in H; rewrite H. reflexivity.
Qed.
Lemma charref_hex_prop a x w b s : ~ In 38 a -> ~ In 38 b -> x = 120 \/ x = 88 -> hex_text w ->
  (hex_num w <= 4294967295 -> exists y, num_ref (hex_num w) y /\
     unescape (a ++ (u "&#" ++ [x] ++ w ++ u ";") ++ b) s = Ret (a ++ y ++ b) s) /\
  (4294967295 < hex_num w -> unescape (a ++ (u "&#" ++ [x] ++ w ++ u ";") ++ b) s = Panic BadNumber).
Proof.
  intros Ha Hb Hx [Hne Hw].
  assert (Hd : forallb is_hex w = true).
  { apply forallb_forall. rewrite Forall_forall in Hw. intros c Hc. apply Hw in Hc. unfold is_hex, ModelHtml.between. lia. }
  rewrite (unescape_hex a x w b s Ha Hb Hx Hne Hd). unfold u32_max. split; intros H.
  - apply N.leb_le in H; rewrite H. exists (charref_of_num (hex_num w)). split; auto using charref_of_num_spec.
  - apply N.leb_gt in H; rewrite H. reflexivity.
Qed.

Lemma url_fallback_prop W url : Forall (fun c => c < 1114112) url ->
  w_parse W url = None -> w_join W url = None ->
  (w_join W (percent_encode url) <> None ->
     pct_decode (url_to_string (url_parse W url)) = Some (flat_map utf8_bytes url)) /\
  (w_join W (percent_encode url) = None -> url_to_string (url_parse W url) = []) /\
  (forall c, In c (url_to_string (url_parse W url)) ->
     48 <= c <= 57 \/ 65 <= c <= 90 \/ 97 <= c <= 122 \/ c = 37).
Proof.
  intros Hs H1 H2. destruct (w_join W (percent_encode url)) as [j|] eqn:E.
  - rewrite (url_fallback W url j) by auto. split; [intros _; apply pct_decode_encode; auto|].
    split; [discriminate|]. intros c. apply percent_encode_chars; auto.
  - unfold url_parse, make_relative_url. rewrite H1, H2, E. split; [congruence|].
    split; [reflexivity|]. intros c [].
Qed.
