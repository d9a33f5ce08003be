(** Line breaks in list items, definitions and cells, in any text of ASCII characters. *)
From Verif Require Import Str Unicode Lib ModelBase ModelHtml ModelInline ModelParser ProofDoc ProofParse ProofListText SpecGlyphRules ProofGlyphRules SpecItemBreaks.

(** ** ASCII characters *)
Definition ascii_all (f : N -> bool) : bool := forallb f (map N.of_nat (seq 0 128)).
Lemma ascii_every f : ascii_all f = true -> forall c, c < 128 -> f c = true.
Proof. unfold ascii_all. rewrite forallb_forall. intros H c Hc. apply H. apply in_map_iff. exists (N.to_nat c). split; [apply N2Nat.id|]. apply in_seq. lia. Qed.
Lemma lower_ascii c : c < 128 -> lower_char c = [small c].
Proof. intros H. assert (E : ascii_all (fun c => seqb (lower_char c) [small c]) = true) by (vm_compute; reflexivity). apply seqb_eq. apply (ascii_every _ E _ H). Qed.
Lemma small_ascii c : c < 128 -> small c < 128 /\ is_ws (small c) = is_ws c /\ (small c =? 124) = (c =? 124) /\ (small c =? 10) = (c =? 10) /\ ascii_lower (small c) = small c.
Proof.
  intros H. assert (E : ascii_all (fun c => (small c <? 128) && Bool.eqb (is_ws (small c)) (is_ws c) && Bool.eqb (small c =? 124) (c =? 124) && Bool.eqb (small c =? 10) (c =? 10) && (ascii_lower (small c) =? small c)) = true) by (vm_compute; reflexivity).
  pose proof (ascii_every _ E _ H) as F. cbv beta in F. rewrite !andb_true_iff, !eqb_true_iff, N.ltb_lt, N.eqb_eq in F. tauto.
Qed.
Lemma len_ascii c : c < 128 -> utf8_len c = 1%nat.
Proof. intros H. unfold utf8_len. apply N.ltb_lt in H. rewrite H. reflexivity. Qed.
Lemma ascii_app a b : ascii (a ++ b) <-> ascii a /\ ascii b.
Proof. unfold ascii. setoid_rewrite in_app_iff. firstorder. Qed.
Lemma lower_map t : ascii t -> to_lowercase t = map small t.
Proof. unfold to_lowercase. induction t as [|c t IH]; intros H; [reflexivity|]. cbn [flat_map map]. rewrite lower_ascii by (apply H; left; reflexivity). rewrite IH by (intros d Hd; apply H; right; exact Hd). reflexivity. Qed.
Lemma blen_is t : ascii t -> blen t = List.length t.
Proof. induction t as [|c t IH]; intros H; [reflexivity|]. cbn [blen List.length]. rewrite len_ascii by (apply H; left; reflexivity). rewrite IH by (intros d Hd; apply H; right; exact Hd). reflexivity. Qed.
Lemma ascii_small t : ascii t -> ascii (map small t).
Proof. intros H c Hc. apply in_map_iff in Hc as (d & <- & Hd). apply small_ascii, H, Hd. Qed.
Lemma drop_is a b : ascii a -> bdrop (List.length a) (a ++ b) = Some b.
Proof. intros H. rewrite <- (blen_is a H). apply bdrop_app. Qed.
Lemma slice_is a x b : ascii a -> ascii x -> bslice (List.length a) (List.length a + List.length x) (a ++ x ++ b) = Some x.
Proof. intros Ha Hx. rewrite <- (blen_is a Ha), <- (blen_is x Hx). apply bslice_app. Qed.

(** ** What stands before *)
Lemma same_case y p : ascii y -> (forall c, In c y -> ascii_lower c = c) -> ascii p -> (forall c, In c p -> ascii_lower c = c) -> eq_ignore_ascii_case y p = seqb y p.
Proof.
  intros Hy Ly Hp Lp. unfold eq_ignore_ascii_case. rewrite !blen_is by assumption. clear Hy Hp. revert p Lp. induction y as [|c y IH]; intros [|d p] Lp; try reflexivity.
  cbn [List.length Nat.eqb combine forallb fst snd seqb]. rewrite (Ly c), (Lp d) by (left; reflexivity). rewrite <- IH; [|intros e He; apply Ly; right; exact He|intros e He; apply Lp; right; exact He]. destruct (Nat.eqb _ _), (c =? d); reflexivity.
Qed.
Lemma stops_form p : In p STOP_PREFIXES -> ascii p /\ forall c, In c p -> ascii_lower c = c.
Proof.
  intros H. assert (E : forallb (forallb (fun c => (c <? 128) && (ascii_lower c =? c))) STOP_PREFIXES = true) by (vm_compute; reflexivity).
  rewrite forallb_forall in E. specialize (E p H). rewrite forallb_forall in E. split; intros c Hc; specialize (E c Hc); apply andb_true_iff in E as [E1 E2]; [apply N.ltb_lt, E1|apply N.eqb_eq, E2].
Qed.
Lemma stop_is l z r s : (forall p, In p l -> In p STOP_PREFIXES) -> ascii z -> stop_prefix l (map small (z ++ r)) (List.length z) s = Ret (existsb (ends_like z) l) s.
Proof.
  intros Hl Hz. induction l as [|p l IH]; [reflexivity|]. destruct (stops_form p (Hl p (or_introl eq_refl))) as [Hp Lp]. cbn [stop_prefix existsb]. rewrite (blen_is p Hp).
  set (k := (List.length z - List.length p)%nat). assert ((List.length z - Nat.min (List.length p) (List.length z))%nat = k) as -> by (unfold k; lia).
  assert (bslice k (List.length z) (map small (z ++ r)) = Some (map small (skipn k z))) as ->.
  { assert (E1 : List.length (map small (firstn k z)) = k) by (rewrite map_length, firstn_length; unfold k; lia).
    assert (E2 : (k + List.length (map small (skipn k z)))%nat = List.length z) by (rewrite map_length, skipn_length; unfold k; lia).
    assert (E3 : map small (z ++ r) = map small (firstn k z) ++ map small (skipn k z) ++ map small r) by (rewrite <- !map_app, app_assoc, firstn_skipn; reflexivity).
    assert (Hs : bslice (List.length (map small (firstn k z))) (List.length (map small (firstn k z)) + List.length (map small (skipn k z))) (map small (firstn k z) ++ map small (skipn k z) ++ map small r) = Some (map small (skipn k z)))
      by (apply slice_is; apply ascii_small; intros c Hc; apply Hz; rewrite <- (firstn_skipn k z); apply in_or_app; auto).
    rewrite E1, E2, <- E3 in Hs. exact Hs. }
  assert (Ha : ascii (skipn k z)) by (intros c Hc; apply Hz; rewrite <- (firstn_skipn k z); apply in_or_app; auto).
  cbn [of_opt]. rewrite bind_ret. rewrite same_case; [|apply ascii_small, Ha| |exact Hp|exact Lp].
  - change (seqb (map small (skipn k z)) p) with (ends_like z p). destruct (ends_like z p); [reflexivity|]. apply IH. intros q Hq. apply Hl. right. exact Hq.
  - intros c Hc. apply in_map_iff in Hc as (d & <- & Hd). apply small_ascii, Ha, Hd.
Qed.
Lemma next_is t : ascii t -> bad_next (map small t) = holds_back t.
Proof. intros H. destruct t as [|c t]; [reflexivity|]. cbn [bad_next map holds_back]. destruct (small_ascii c (H c (or_introl eq_refl))) as (_ & -> & -> & _). reflexivity. Qed.
Lemma find_is w t : ascii w -> forallb (fun c => negb (c =? 10)) w = true -> bfind_nl (map small (w ++ 10 :: t)) = Some (List.length w).
Proof.
  induction w as [|c w IH]; intros Ha Hw; [reflexivity|]. cbn [forallb] in Hw. apply andb_true_iff in Hw as [Hc Hw]. destruct (small_ascii c (Ha c (or_introl eq_refl))) as (S1 & _ & _ & S2 & _). cbn [app map bfind_nl List.length]. rewrite S2. apply negb_true_iff in Hc. rewrite Hc, IH; [|intros d Hd; apply Ha; right; exact Hd|exact Hw]. rewrite len_ascii by exact S1. reflexivity.
Qed.
Lemma find_none w : ascii w -> forallb (fun c => negb (c =? 10)) w = true -> bfind_nl (map small w) = None.
Proof.
  induction w as [|c w IH]; intros Ha Hw; [reflexivity|]. cbn [forallb] in Hw. apply andb_true_iff in Hw as [Hc Hw]. destruct (small_ascii c (Ha c (or_introl eq_refl))) as (S1 & _ & _ & S2 & _). cbn [map bfind_nl]. rewrite S2. apply negb_true_iff in Hc. rewrite Hc, IH; [reflexivity|intros d Hd; apply Ha; right; exact Hd|exact Hw].
Qed.
Lemma broken_word br w : forallb (fun c => negb (c =? 10)) w = true -> forall b t, lines_broken br b (w ++ t) = w ++ lines_broken br (b ++ w) t.
Proof.
  induction w as [|c w IH]; intros Hw b t; [rewrite app_nil_r; reflexivity|]. cbn [forallb] in Hw. apply andb_true_iff in Hw as [Hc Hw]. apply negb_true_iff in Hc. cbn [app lines_broken]. rewrite Hc. cbn [andb app]. rewrite IH by exact Hw. rewrite <- app_assoc. reflexivity.
Qed.

(** ** The loop *)
Section Loop.
Variable br : str.
Lemma loop_is n : forall a t out s, ascii (a ++ t) -> (List.length t < n)%nat ->
  exists o a' r, brs_loop n (a ++ t) (map small (a ++ t)) br (List.length a) out s = Ret (o, List.length a') s /\ a ++ t = a' ++ r /\ o ++ r = out ++ lines_broken br a t /\ (o = [] -> out = [] /\ forallb (fun c => negb (c =? 10)) t = true).
Proof.
  induction n as [|n IH]; intros a t out s Ha Hn; [lia|]. destruct (proj1 (ascii_app _ _) Ha) as [Ha1 Ha2]. cbn [brs_loop].
  assert (bdrop (List.length a) (map small (a ++ t)) = Some (map small t)) as -> by (rewrite map_app, <- (map_length small a); apply drop_is, ascii_small, Ha1). cbn [of_opt]. rewrite bind_ret.
  destruct (run (fun c => negb (c =? 10)) t) as [w r] eqn:E. destruct (run_split _ _ _ _ E) as (-> & Hw & Hr). destruct (proj1 (ascii_app _ _) Ha2) as [Hw2 Hr2]. destruct r as [|c r].
  - rewrite app_nil_r in *. rewrite find_none by assumption. exists out, a, w. split; [reflexivity|]. split; [reflexivity|]. split; [|auto]. rewrite <- (app_nil_r w) at 2. rewrite broken_word by exact Hw. cbn [lines_broken]. rewrite app_nil_r. reflexivity.
  - apply negb_false_iff, N.eqb_eq in Hr. subst c. rewrite find_is by assumption. cbv zeta. rewrite slice_is by assumption. cbn [of_opt]. rewrite bind_ret.
    assert (Haw : ascii (a ++ w)) by (apply ascii_app; auto). assert (Hr' : ascii r) by (intros c Hc; apply Hr2; right; exact Hc).
    assert (S (List.length a + List.length w) = List.length (a ++ w ++ [10])) as El by (rewrite !app_length; cbn [List.length]; lia).
    assert (a ++ w ++ 10 :: r = (a ++ w ++ [10]) ++ r) as Et by (rewrite <- !app_assoc; reflexivity).
    assert (Hawn : ascii (a ++ w ++ [10])) by (rewrite app_assoc; apply ascii_app; split; [exact Haw|intros c [<-|[]]; lia]).
    assert (bdrop (S (List.length a + List.length w)) (map small (a ++ w ++ 10 :: r)) = Some (map small r)) as -> by (rewrite El, Et, map_app, <- (map_length small (a ++ w ++ [10])); apply drop_is, ascii_small, Hawn).
    cbn [of_opt]. rewrite bind_ret. rewrite next_is by exact Hr'.
    assert (forall k : bool -> M (str * nat), bind (if holds_back r then ret true else stop_prefix STOP_PREFIXES (map small (a ++ w ++ 10 :: r)) (List.length a + List.length w)) k s = k (holds_back r || existsb (ends_like (a ++ w)) ends_of_line) s) as ->.
    { intros k. unfold bind. destruct (holds_back r); [reflexivity|]. rewrite <- app_length, app_assoc. rewrite stop_is by (auto). reflexivity. }
    rewrite Et in Ha. destruct (IH (a ++ w ++ [10]) r (out ++ w ++ (if holds_back r || existsb (ends_like (a ++ w)) ends_of_line then [] else br) ++ [10]) s Ha) as (o & a' & r' & L1 & L2 & L3 & L4); [rewrite app_length in Hn; cbn [List.length] in Hn; lia|].
    exists o, a', r'. split; [rewrite El, Et; exact L1|]. split; [rewrite Et; exact L2|]. split.
    + rewrite L3. rewrite broken_word by exact Hw. cbn [lines_broken N.eqb Pos.eqb andb]. rewrite <- !app_assoc. do 2 f_equal. destruct (_ || _); reflexivity.
    + intros ->. destruct (L4 eq_refl) as [F _]. destruct out, w, (holds_back r || existsb (ends_like (a ++ [])) ends_of_line), br; discriminate.
Qed.
Lemma broken_exact t s : ascii t -> insert_brs t br s = Ret (lines_broken br [] t) s.
Proof.
  intros Ha. unfold insert_brs. destruct (Nat.eqb (count_char 10 t) 0) eqn:E.
  - apply Nat.eqb_eq in E. unfold count_char in E. assert (Hw : forallb (fun c => negb (c =? 10)) t = true).
    { apply forallb_forall. intros c Hc. apply negb_true_iff. destruct (N.eqb_spec c 10) as [->|]; [|reflexivity]. assert (In 10 (filter (N.eqb 10) t)) as F by (apply filter_In; auto). destruct (filter (N.eqb 10) t); [destruct F|discriminate]. }
    rewrite <- (app_nil_r t) at 2. rewrite broken_word by exact Hw. cbn [lines_broken]. rewrite app_nil_r. reflexivity.
  - rewrite lower_map by exact Ha. destruct (loop_is (S (List.length (map small t))) [] t [] s Ha) as (o & a' & r & L1 & L2 & L3 & L4); [rewrite map_length; lia|]. cbn [app List.length] in L1, L2, L3. unfold bind. rewrite L1. cbn [fst snd].
    destruct o as [|x o]; cbn [is_empty].
    + destruct (L4 eq_refl) as [_ Hw]. unfold ret. rewrite <- (app_nil_r t) at 2. rewrite broken_word by exact Hw. cbn [lines_broken]. rewrite app_nil_r. reflexivity.
    + rewrite L2 in Ha |- *. rewrite drop_is by (apply ascii_app in Ha; tauto). cbn [of_opt]. unfold ret. rewrite <- L2, L3. reflexivity.
Qed.
End Loop.
