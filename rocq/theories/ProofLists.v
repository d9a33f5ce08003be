(** Proofs about lists. *)
From Coq Require Import ZArith.
From Verif Require Import Str Unicode Regex RegexParse RegexSnips RegexTheory RegexGroups Lib ModelBase ModelHtml ModelUrl
  ModelAttrs ModelInline ModelParser SpecHtml ProofHtml ProofCharref ProofState ProofSpan ProofDoc SpecLists.
#[local] Arguments u : simpl never.

(** ** Open lists: the prefixes of a marker *)
Fixpoint pres (p : str) : list str := match p with [] => [] | c :: r => [c] :: map (cons c) (pres r) end.
Definition opens (p : str) : list (str * N) := map (fun q => (q, 1)) (pres p).
Lemma pres_snoc p c : pres (p ++ [c]) = pres p ++ [p ++ [c]].
Proof. induction p as [|a p IH]; [reflexivity|]. cbn [app pres]. rewrite IH, map_app. reflexivity. Qed.
Lemma opens_snoc p c : opens (p ++ [c]) = opens p ++ [(p ++ [c], 1)].
Proof. unfold opens. rewrite pres_snoc, map_app. reflexivity. Qed.
Lemma pres_len p q : In q (pres p) -> (1 <= List.length q <= List.length p)%nat.
Proof.
  revert q. induction p as [|a p IH]; intros q [].
  - subst. cbn. lia.
  - apply in_map_iff in H as (r & <- & H). apply IH in H. cbn. lia.
Qed.
Lemma opens_absent p q : (List.length p < List.length q)%nat -> assoc q (opens p) = None.
Proof.
  intros H. assert (G : forall x, In x (pres p) -> x <> q) by (intros x I E; subst; apply pres_len in I; lia).
  unfold opens. induction (pres p) as [|x l IH]; [reflexivity|]. cbn [map assoc fst snd].
  rewrite (proj2 (Str.seqb_neq x q)); [|apply G; left; reflexivity]. apply IH. intros y I. apply G. right. exact I.
Qed.
Lemma opens_present p c : has_key (p ++ [c]) (opens (p ++ [c])) = true.
Proof.
  unfold has_key. rewrite opens_snoc. induction (opens p) as [|[x v] l IH]; cbn [app assoc].
  - rewrite seqb_refl. reflexivity.
  - destruct (seqb x (p ++ [c])); [reflexivity|]. exact IH.
Qed.
Lemma im_insert_absent {A} k (v : A) l : assoc k l = None -> im_insert k v l = l ++ [(k, v)].
Proof.
  induction l as [|[x y] l IH]; cbn [assoc im_insert]; [reflexivity|].
  destruct (seqb x k); [discriminate|]. intros H. rewrite IH by exact H. reflexivity.
Qed.
Lemma opens_insert p c : im_insert (p ++ [c]) 1 (opens p) = opens (p ++ [c]).
Proof. rewrite im_insert_absent, opens_snoc; [reflexivity|]. apply opens_absent. rewrite app_length. cbn. lia. Qed.

Definition left_open (next : option nat) (p : str) : list (str * N) :=
  filter (fun kv => negb (closes next (fst kv))) (opens p).
Definition chain (tb : str) (next : option nat) (p : str) : str :=
  flat_map (close_one tb (u "li")) (filter (fun kv => closes next (fst kv)) (rev (opens p))).
Lemma chain_snoc tb next p c : chain tb next (p ++ [c]) =
  (if closes next (p ++ [c]) then nl ++ tb ++ u "</" ++ list_type (p ++ [c]) ++ u ">"
     ++ (if Nat.ltb 1 (List.length (p ++ [c])) then u "</" ++ u "li" ++ u ">" else []) else []) ++ chain tb next p.
Proof.
  unfold chain. rewrite opens_snoc, rev_app_distr. cbn [rev app filter fst]. destruct (closes next (p ++ [c])); reflexivity.
Qed.
Lemma left_snoc next p c : left_open next (p ++ [c]) = left_open next p ++ (if closes next (p ++ [c]) then [] else [(p ++ [c], 1)]).
Proof. unfold left_open. rewrite opens_snoc, filter_app. cbn [filter fst]. destruct (closes next (p ++ [c])); reflexivity. Qed.
Lemma closes_ge n p : (List.length p <= n)%nat -> closes (Some n) p = false.
Proof. intros H. cbn. apply Nat.ltb_ge. exact H. Qed.
Lemma closes_lt next p : (match next with Some n => n < List.length p | None => True end)%nat -> closes next p = true.
Proof. destruct next; cbn; [|reflexivity]. intros H. apply Nat.ltb_lt. exact H. Qed.
Lemma filter_all {A} (f : A -> bool) l : (forall x, In x l -> f x = true) -> filter f l = l.
Proof. induction l as [|a l IH]; intros H; [reflexivity|]. cbn. rewrite H by (left; reflexivity). f_equal. apply IH. intros x I. apply H. right. exact I. Qed.
Lemma filter_none {A} (f : A -> bool) l : (forall x, In x l -> f x = false) -> filter f l = [].
Proof. induction l as [|a l IH]; intros H; [reflexivity|]. cbn. rewrite H by (left; reflexivity). apply IH. intros x I. apply H. right. exact I. Qed.
Lemma in_opens p kv : In kv (opens p) -> (List.length (fst kv) <= List.length p)%nat.
Proof. unfold opens. intros H. apply in_map_iff in H as (q & <- & H). apply pres_len in H. cbn. lia. Qed.
Lemma chain_deep tb n p : (List.length p <= n)%nat -> chain tb (Some n) p = [].
Proof. intros H. unfold chain. rewrite filter_none; [reflexivity|]. intros kv I. apply in_rev, in_opens in I. apply closes_ge. lia. Qed.
Lemma left_deep n p : (List.length p <= n)%nat -> left_open (Some n) p = opens p.
Proof. intros H. unfold left_open. apply filter_all. intros kv I. apply in_opens in I. rewrite closes_ge by lia. reflexivity. Qed.

(** ** Markers *)
Definition path (p : str) : Prop := Forall (fun c => c = 42 \/ c = 35) p.
Lemma path_not c p : path p -> c <> 42 -> c <> 35 -> contains_char c p = false.
Proof. intros H A B. apply contains_char_nin. intros I. unfold path in H. rewrite Forall_forall in H. apply H in I as [->| ->]; contradiction. Qed.
Lemma path_mark k : path [mark_of k].
Proof. constructor; [|constructor]. destruct k; cbn; auto. Qed.
Lemma path_snoc p k : path p -> path (p ++ [mark_of k]).
Proof. intros H. apply Forall_app. split; [exact H|apply path_mark]. Qed.
Lemma item_tag_path p : path p -> item_tag p = u "li".
Proof. intros H. unfold item_tag. rewrite !path_not; auto; discriminate. Qed.
Lemma ends_snoc c d p : ends_with [c] (p ++ [d]) = (c =? d).
Proof. unfold ends_with. rewrite rev_app_distr. cbn. rewrite andb_true_r. reflexivity. Qed.
Definition star_cls : cls := Eval vm_compute in match rx_re LIST_START_RE with RSeq _ (RGroup _ (RSeq (RCls c) _)) => c | _ => mk_cls false [] end.
Lemma star_shape : rx_re LIST_START_RE = RSeq (RAssert SOT) (RGroup 1 (RSeq (RCls star_cls) (RStar true (RCls star_cls)))).
Proof. reflexivity. Qed.
Lemma list_type_path p k : path p -> list_type (p ++ [mark_of k]) = match k with Bullets => u "ul" | Numbers _ => u "ol" end.
Proof.
  intros H. assert (Hp : path (p ++ [mark_of k])) by (apply path_snoc; exact H).
  assert (C : captures (rx_re LIST_START_RE) (p ++ [mark_of k]) = Some (mk_hit (p ++ [mark_of k]) [(1%nat, (p ++ [mark_of k], []))])).
  { assert (A : forall t, path t -> t <> [] -> captures (rx_re LIST_START_RE) t = Some (mk_hit t [(1%nat, (t, []))])).
    { intros t Ht N. destruct t as [|x t]; [contradiction|].
      assert (F : forallb (in_cls star_cls) (x :: t) = true).
      { apply forallb_forall. intros y I. unfold path in Ht. rewrite Forall_forall in Ht. apply Ht in I as [->| ->]; reflexivity. }
      unfold captures, find_first. cbn [find_from].
      assert (M : match_at (rx_re LIST_START_RE) [] (x :: t) = Some (mk_mst (rev t ++ [x]) [] [(1%nat, (x :: t, []))])).
      { unfold match_at. rewrite star_shape, m_seq, m_assert. cbn [assert_holds is_empty]. rewrite m_group, m_seq, m_cls.
        cbn [forallb] in F. apply andb_true_iff in F as [F1 F2]. rewrite F1.
        rewrite <- (app_nil_r t) at 1. apply m_star_greedy; [exact F2|exact I|]. cbn [m_before m_after m_caps]. reflexivity. }
      rewrite M. cbn [option_map fst snd]. unfold mk_hit_of, cap_str. cbn [m_after m_caps fst snd List.length]. rewrite Nat.sub_0_r.
      change (S (List.length t)) with (List.length (x :: t)). rewrite firstn_all. reflexivity. }
    apply A; [exact Hp|]. destruct p; discriminate. }
  unfold list_type. rewrite C. unfold cap_or, cap_opt, cap_text. cbn [h_caps find_cap Nat.eqb option_map]. unfold cap_str.
  cbn [fst snd List.length]. rewrite Nat.sub_0_r, firstn_all. change (u "#") with [35]. rewrite ends_snoc. destruct k; reflexivity.
Qed.

(** ** Counters *)
Definition agrees (c : counters) (s : pstate) : Prop :=
  forall q, match assoc q (ps_ol_starts s) with Some n => n | None => 1 end = c q.
Definition kept (s s' : pstate) : Prop := s' = set_ol_starts (ps_ol_starts s') s.
Lemma kept_refl s : kept s s.
Proof. destruct s. reflexivity. Qed.
Lemma kept_trans a b c : kept a b -> kept b c -> kept a c.
Proof. unfold kept. intros -> ->. destruct a. reflexivity. Qed.
Lemma agrees_set c s p v : agrees c s -> agrees (counted p v c) (set_ol_starts (im_insert p v (ps_ol_starts s)) s).
Proof.
  intros H q. unfold counted. change (ps_ol_starts (set_ol_starts ?x ?y)) with x.
  destruct (seqb q p) eqn:E.
  - apply seqb_eq in E. subst. rewrite assoc_im. reflexivity.
  - apply Str.seqb_neq in E. rewrite ProofState.assoc_im_other by exact E. apply H.
Qed.
Lemma agrees_same c s p : agrees c s -> agrees c (set_ol_starts (im_insert p (c p) (ps_ol_starts s)) s).
Proof.
  intros H q. change (ps_ol_starts (set_ol_starts ?x ?y)) with x. destruct (seqb q p) eqn:E.
  - apply seqb_eq in E. subst. rewrite assoc_im. reflexivity.
  - apply Str.seqb_neq in E. rewrite ProofState.assoc_im_other by exact E. apply H.
Qed.
Lemma tabs_repeat n : repeat_str tab n = tabs n.
Proof. induction n as [|n IH]; [reflexivity|]. cbn [repeat_str tabs List.repeat]. rewrite IH. reflexivity. Qed.
Lemma agrees_ext c c' s : (forall q, c q = c' q) -> agrees c s -> agrees c' s.
Proof. intros E H q. rewrite <- E. apply H. Qed.

Section Lines.
Variable T : textile.

(** The text of a line after its first tag. *)
Definition shown (next : option nat) (p t : str) : str :=
  t ++ (if match next with Some l => Nat.leb l (List.length p) | None => true end then u "</li>" else [])
    ++ chain (tabs (List.length p - 1)) next p.
Definition starry (i : option list_item) : Prop := match i with Some i => path (li_tl i) | None => True end.
Definition above (prev : option list_item) (n : nat) : Prop := match prev with Some i => (li_level i < n)%nat | None => True end.
Definition within (prev : option list_item) (n : nat) : Prop := match prev with Some i => (n <= li_level i)%nat | None => False end.
Lemma starry_59 prev tl (lists : list (str * N)) : starry prev ->
  match prev with Some p => if contains_char 59 (li_tl p) && contains_char 58 tl then im_insert tl 2 lists else lists | None => lists end = lists.
Proof. destruct prev as [i|]; [|reflexivity]. cbn. intros H. rewrite (path_not 59) by (auto; discriminate). reflexivity. Qed.

Definition numbering (k : kind) (p : str) (first : bool) (st : str) (c : counters) : M (option str) :=
  if seqb (match k with Bullets => u "ul" | Numbers _ => u "ol" end) (u "ol") then
    r <- ol_number (c p) first true st ;;
    modify (fun s => set_ol_starts (im_insert p (fst r) (ps_ol_starts s)) s) ;;;
    ret (snd r)
  else ret None.
Lemma digits_nonempty n : is_empty (dec n) = false.
Proof. destruct (dec_spec n) as [H _]. destruct (dec n); [contradiction|reflexivity]. Qed.
Lemma digits_not_under n : seqb (dec n) (u "_") = false.
Proof.
  apply seqb_neq. intros E. destruct (dec_spec n) as (_ & H & _). rewrite E in H. discriminate.
Qed.
Definition numbers_fit (k : kind) : Prop := match k with Numbers (Number n) => n <= 18446744073709551615 | _ => True end.
Definition start_of (k : kind) (p : str) (c : counters) : option str :=
  match k with Numbers (Number n) => Some (dec n) | Numbers Continue => Some (dec (c p)) | _ => None end.
Lemma numbering_first k p c s : numbers_fit k -> agrees c s ->
  match take_number k p (snd (opening k p c)) with
  | None => numbering k p true (first_suffix k) c s = Panic Overflow
  | Some c' => exists s', numbering k p true (first_suffix k) c s = Ret (start_of k p c) s' /\ agrees c' s' /\ kept s s'
  end.
Proof.
  intros F H. destruct k as [|st].
  - cbn [take_number opening snd]. exists s. split; [reflexivity|]. split; [exact H|apply kept_refl].
  - unfold numbering. change (seqb (u "ol") (u "ol")) with true. unfold bind at 1. unfold ol_number. cbn [andb].
    change usize_max with 18446744073709551615.
    assert (K : forall v (start : option str) c0, (forall q, counted p (v + 1) c q = counted p (c0 p + 1) c0 q) -> c0 p = v ->
      match take_number (Numbers st) p c0 with
      | None => match (if v =? 18446744073709551615 then panic Overflow else ret (v + 1, start)) s with
                | Ret r s => (modify (fun s => set_ol_starts (im_insert p (fst r) (ps_ol_starts s)) s) ;;; ret (snd r)) s
                | Panic x => Panic x | Diverge => Diverge end = Panic Overflow
      | Some c' => exists s', match (if v =? 18446744073709551615 then panic Overflow else ret (v + 1, start)) s with
                              | Ret r s => (modify (fun s => set_ol_starts (im_insert p (fst r) (ps_ol_starts s)) s) ;;; ret (snd r)) s
                              | Panic x => Panic x | Diverge => Diverge end = Ret start s' /\ agrees c' s' /\ kept s s'
      end).
    { intros v start c0 E V. cbn [take_number]. rewrite V. destruct (v =? 18446744073709551615); [reflexivity|].
      eexists. split; [reflexivity|]. split; [|unfold kept; destruct s; reflexivity].
      cbn [fst]. eapply agrees_ext; [|apply agrees_set; exact H]. intros q. rewrite E, V. reflexivity. }
    destruct st as [|n|]; cbn [first_suffix opening snd start_of].
    + cbn [is_empty negb andb]. specialize (K 1 None (counted p 1 c)). 
      assert (X : counted p 1 c p = 1) by (unfold counted; rewrite seqb_refl; reflexivity).
      specialize (K ltac:(intros q; rewrite X; unfold counted; destruct (seqb q p); reflexivity) X).
      destruct (take_number _ p _); exact K.
    + rewrite digits_nonempty, digits_not_under. cbn [negb]. rewrite parse_uint_dec by exact F.
      specialize (K n (Some (dec n)) (counted p n c)).
      assert (X : counted p n c p = n) by (unfold counted; rewrite seqb_refl; reflexivity).
      specialize (K ltac:(intros q; rewrite X; unfold counted; destruct (seqb q p); reflexivity) X).
      destruct (take_number _ p _); exact K.
    + change (is_empty [95]) with false. change (seqb [95] (u "_")) with true. cbn [negb].
      specialize (K (c p) (Some (dec (c p))) c ltac:(reflexivity) eq_refl).
      destruct (take_number _ p _); exact K.
Qed.
Lemma numbering_next k p c s : agrees c s ->
  match take_number k p c with
  | None => numbering k p false [] c s = Panic Overflow
  | Some c' => exists s', numbering k p false [] c s = Ret None s' /\ agrees c' s' /\ kept s s'
  end.
Proof.
  intros H. destruct k as [|st].
  - exists s. split; [reflexivity|]. split; [exact H|apply kept_refl].
  - unfold numbering. change (seqb (u "ol") (u "ol")) with true. unfold bind at 1. unfold ol_number. cbn [andb take_number].
    change usize_max with 18446744073709551615. destruct (c p =? _); [reflexivity|].
    eexists. split; [reflexivity|]. split; [|unfold kept; destruct s; reflexivity]. apply agrees_set. exact H.
Qed.

Lemma attributes_of k p first st c s : agrees c s ->
  (if seqb (match k with Bullets => u "ul" | Numbers _ => u "ol" end) (u "ol") then
     s <- get ;;
     let current := match assoc p (ps_ol_starts s) with Some n => n | None => 1 end in
     r <- ol_number current first true st ;;
     modify (fun s => set_ol_starts (im_insert p (fst r) (ps_ol_starts s)) s) ;;;
     ret (attr_add (u "start") (snd r) [])
   else ret []) s = bind (numbering k p first st c) (fun o => ret (attr_add (u "start") o [])) s.
Proof.
  intros H. unfold numbering. destruct k as [|st0]; [reflexivity|]. change (seqb (u "ol") (u "ol")) with true. cbv iota.
  unfold bind at 1, get at 1. cbv zeta. rewrite (H p). unfold bind. destruct (ol_number (c p) first true st s); reflexivity.
Qed.
Lemma start_attr k p c : attrs_to_string (attr_add (u "start") (start_of k p c) []) =
  match k with Numbers (Number n) => u " start=""" ++ dec n ++ u """" | Numbers Continue => u " start=""" ++ dec (c p) ++ u """" | _ => [] end.
Proof.
  assert (A : forall n, attrs_to_string (attr_add (u "start") (Some (dec n)) []) = u " start=""" ++ dec n ++ u """").
  { intros n. unfold attr_add, attr_insert, attrs_to_string. cbn [bt_insert flat_map]. unfold attr_str. cbn [fst snd].
    rewrite quoteattr_safe by apply attr_safe_dec. rewrite app_nil_r. reflexivity. }
  destruct k as [|[|n|]]; try reflexivity; apply A.
Qed.
Lemma opening_eq k p c : fst (opening k p c) =
  u "<" ++ match k with Bullets => u "ul" | Numbers _ => u "ol" end ++ attrs_to_string (attr_add (u "start") (start_of k p c) []) ++ u ">".
Proof. rewrite start_attr. destruct k as [|[|n|]]; try reflexivity; cbn [opening fst]; rewrite <- !app_assoc; reflexivity. Qed.
Lemma line_first prev q k t s c : path q -> above prev (S (List.length q)) -> starry prev -> numbers_fit k -> agrees c s ->
  trim t = t -> t <> [] ->
  match take_number k (q ++ [mark_of k]) (snd (opening k (q ++ [mark_of k]) c)) with
  | None => forall next, list_line T prev next (opens q) (mk_li [] t (q ++ [mark_of k]) (first_suffix k)) s = Panic Overflow
  | Some c' => exists s', agrees c' s' /\ kept s s' /\ forall next,
      list_line T prev next (opens q) (mk_li [] t (q ++ [mark_of k]) (first_suffix k)) s =
      Ret (left_open next (q ++ [mark_of k]),
           (tabs (List.length q) ++ fst (opening k (q ++ [mark_of k]) c) ++ nl ++ tabs (List.length q) ++ tab ++ u "<li>")
           ++ shown next (q ++ [mark_of k]) t) s'
  end.
Proof.
  intros Hq Ha Hs Hf Hc Ht Hn. set (p := q ++ [mark_of k]).
  assert (Hp : path p) by (apply path_snoc; exact Hq).
  assert (Hl : List.length p = S (List.length q)) by (unfold p; rewrite app_length; cbn; lia).
  pose proof (numbering_first k p c s Hf Hc) as N.
  assert (E : forall next, list_line T prev next (opens q) (mk_li [] t p (first_suffix k)) s =
    bind (numbering k p true (first_suffix k) c) (fun o => ret (left_open next p,
       (tabs (List.length q) ++ (u "<" ++ match k with Bullets => u "ul" | Numbers _ => u "ol" end ++ attrs_to_string (attr_add (u "start") o []) ++ u ">")
        ++ nl ++ tabs (List.length q) ++ tab ++ u "<li>") ++ shown next p t)) s).
  { intros next. unfold list_line. cbn [li_tl li_content li_atts li_st]. unfold li_level. cbn [li_tl].
    assert (LT : list_type p = match k with Bullets => u "ul" | Numbers _ => u "ol" end) by (apply list_type_path; exact Hq). rewrite LT. rewrite item_tag_path by exact Hp. rewrite Ht.
    unfold bind at 1. rewrite attrs_none. change (ba_html_attrs ba_default) with (@nil (str * str)).
    replace (match prev with Some p0 => (List.length (li_tl p0) <? List.length p)%nat | None => true end) with true
      by (destruct prev as [i|]; [|reflexivity]; cbn in Ha; rewrite Hl; symmetry; apply Nat.ltb_lt; exact Ha).
    assert (Hne : negb (is_empty t) = true) by (destruct t; [contradiction|reflexivity]).
    rewrite Hne. unfold bind at 1.
    rewrite attributes_of with (c := c) by exact Hc. unfold bind.
    destruct (numbering k p true (first_suffix k) c s) as [o s1| |]; [|reflexivity|reflexivity].
    unfold ret. rewrite starry_59 by exact Hs. unfold has_key. rewrite opens_absent by (rewrite Hl; lia). cbn [negb].
    rewrite tabs_repeat. replace (List.length p - 1)%nat with (List.length q) by lia. cbn [andb].
    assert (OI : im_insert p 1 (opens q) = opens p) by apply opens_insert. rewrite OI. unfold left_open, shown, chain. cbv beta zeta iota.
    replace (List.length p - 1)%nat with (List.length q) by lia.
    apply (f_equal2 (fun a b => Ret (a, b) s1)); [reflexivity|]. rewrite <- !app_assoc.
    destruct (match next with Some l => _ | None => _ end); rewrite <- ?app_assoc; reflexivity. }
  destruct (take_number k p _) as [c'|].
  - destruct N as (s' & N & A & K). exists s'. split; [exact A|]. split; [exact K|]. intros next. rewrite E. unfold bind. rewrite N.
    unfold ret. rewrite <- opening_eq. reflexivity.
  - intros next. rewrite E. unfold bind. rewrite N. reflexivity.
Qed.
Lemma line_next prev q k t s c : path q -> within prev (S (List.length q)) -> starry prev -> agrees c s ->
  trim t = t -> t <> [] ->
  match take_number k (q ++ [mark_of k]) c with
  | None => forall next, list_line T prev next (opens (q ++ [mark_of k])) (mk_li [] t (q ++ [mark_of k]) []) s = Panic Overflow
  | Some c' => exists s', agrees c' s' /\ kept s s' /\ forall next,
      list_line T prev next (opens (q ++ [mark_of k])) (mk_li [] t (q ++ [mark_of k]) []) s =
      Ret (left_open next (q ++ [mark_of k]), (tabs (List.length q) ++ tab ++ u "<li>") ++ shown next (q ++ [mark_of k]) t) s'
  end.
Proof.
  intros Hq Ha Hs Hc Ht Hn. set (p := q ++ [mark_of k]).
  assert (Hp : path p) by (apply path_snoc; exact Hq).
  assert (Hl : List.length p = S (List.length q)) by (unfold p; rewrite app_length; cbn; lia).
  pose proof (numbering_next k p c s Hc) as N.
  assert (E : forall next, list_line T prev next (opens p) (mk_li [] t p []) s =
    bind (numbering k p false [] c) (fun o => ret (left_open next p,
       (tabs (List.length q) ++ tab ++ u "<li" ++ attrs_to_string (attr_add (u "start") o []) ++ u ">") ++ shown next p t)) s).
  { intros next. unfold list_line. cbn [li_tl li_content li_atts li_st]. unfold li_level. cbn [li_tl].
    assert (LT : list_type p = match k with Bullets => u "ul" | Numbers _ => u "ol" end) by (apply list_type_path; exact Hq). rewrite LT. rewrite item_tag_path by exact Hp. rewrite Ht.
    unfold bind at 1. rewrite attrs_none. change (ba_html_attrs ba_default) with (@nil (str * str)).
    replace (match prev with Some p0 => (List.length (li_tl p0) <? List.length p)%nat | None => true end) with false
      by (destruct prev as [i|]; [|contradiction]; cbn in Ha; rewrite Hl; symmetry; apply Nat.ltb_ge; exact Ha).
    assert (Hne : negb (is_empty t) = true) by (destruct t; [contradiction|reflexivity]).
    rewrite Hne. unfold bind at 1.
    rewrite attributes_of with (c := c) by exact Hc. unfold bind.
    destruct (numbering k p false [] c s) as [o s1| |]; [|reflexivity|reflexivity].
    unfold ret. rewrite starry_59 by exact Hs. assert (OP : has_key p (opens p) = true) by apply opens_present. rewrite OP. cbn [negb].
    rewrite tabs_repeat. replace (List.length p - 1)%nat with (List.length q) by lia. cbn [andb].
    unfold left_open, shown, chain. cbv beta zeta iota.
    replace (List.length p - 1)%nat with (List.length q) by lia.
    apply (f_equal2 (fun a b => Ret (a, b) s1)); [reflexivity|]. rewrite <- !app_assoc.
    destruct (match next with Some l => _ | None => _ end); rewrite <- ?app_assoc; reflexivity. }
  destruct (take_number k p _) as [c'|].
  - destruct N as (s' & N & A & K). exists s'. split; [exact A|]. split; [exact K|]. intros next. rewrite E. unfold bind. rewrite N.
    unfold ret. reflexivity.
  - intros next. rewrite E. unfold bind. rewrite N. reflexivity.
Qed.

(** ** Trees *)
Fixpoint flat (p st : str) (i : item) : list list_item :=
  match i with
  | Item text k sub =>
      mk_li [] text p st
      :: match sub with
         | [] => []
         | i :: l => flat (p ++ [mark_of k]) (first_suffix k) i ++ flat_map (flat (p ++ [mark_of k]) []) l
         end
  end.
Fixpoint good_item (i : item) : Prop :=
  match i with
  | Item text k sub => trim text = text /\ text <> [] /\ numbers_fit k /\
      (fix all l := match l with [] => True | i :: l' => good_item i /\ all l' end) sub
  end.
Lemma good_sub t k sub : good_item (Item t k sub) <-> trim t = t /\ t <> [] /\ numbers_fit k /\ Forall good_item sub.
Proof.
  cbn [good_item]. assert (E : forall l, (fix all l := match l with [] => True | i :: l' => good_item i /\ all l' end) l <-> Forall good_item l).
  { induction l as [|i l IH]; [split; auto|]. rewrite IH. split; [intros [A B]; constructor; auto|intros H; inversion H; auto]. }
  rewrite E. reflexivity.
Qed.
Lemma item_induction (P : item -> Prop) : (forall t k sub, Forall P sub -> P (Item t k sub)) -> forall i, P i.
Proof.
  intros H. fix IH 1. intros [t k sub]. apply H. induction sub as [|i l IHl]; constructor; [apply IH|exact IHl].
Qed.
(** The HTML of an item after its opening tag. *)
Definition below (d : nat) (p : str) (i : item) (c : counters) : option (str * counters) :=
  match i with
  | Item text k' sub =>
      match sub with
      | [] => Some (text ++ u "</li>", c)
      | _ =>
          let p' := p ++ [mark_of k'] in
          let (tag, c) := opening k' p' c in
          match run_items (item_html (S d) k' p') sub c with
          | None => None
          | Some (lines, c) =>
              Some (text ++ 10 :: tabs (S d) ++ tag ++ 10 :: join [10] lines
                    ++ 10 :: tabs (of_last (last_indent (S d)) (S d) sub) ++ closing k' ++ u "</li>", c)
          end
      end
  end.
Lemma item_html_eq d k p i c : item_html d k p i c =
  match take_number k p c with
  | None => None
  | Some c => match below d p i c with None => None | Some (x, c) => Some (tabs d ++ tab ++ u "<li>" ++ x, c) end
  end.
Proof.
  destruct i as [t k' sub]. cbn [item_html below]. destruct (take_number k p c) as [c1|]; [|reflexivity]. destruct sub as [|i l]; [reflexivity|].
  cbv zeta. destruct (opening k' (p ++ [mark_of k']) c1) as [tag c2]. destruct (run_items _ _ c2) as [[lines c3]|]; reflexivity.
Qed.
Definition next_of (rest : list list_item) : option nat := option_map li_level (hd_error rest).
Definition ends_at (rest : list list_item) (n : nat) : Prop := match rest with [] => True | i :: _ => (li_level i <= n)%nat end.
Lemma join_app_nl (a b : list str) : a <> [] -> b <> [] -> join [10] (a ++ b) = join [10] a ++ 10 :: join [10] b.
Proof.
  intros Ha Hb. induction a as [|x a IH]; [contradiction|]. destruct a as [|y a].
  - cbn [app]. destruct b; [contradiction|]. reflexivity.
  - change (join [10] ((x :: y :: a) ++ b)) with (x ++ [10] ++ join [10] ((y :: a) ++ b)). rewrite IH by discriminate.
    change (join [10] (x :: y :: a)) with (x ++ [10] ++ join [10] (y :: a)). rewrite <- !app_assoc. reflexivity.
Qed.
Definition line_ok (prev : option list_item) (lists : list (str * N)) (it : list_item) (pre t p : str) (s s1 : pstate) : Prop :=
  forall next, list_line T prev next lists it s = Ret (left_open next p, pre ++ shown next p t) s1.
(** What [list_lines] does with the lines of a part of the tree that are followed by [rest]. *)
Definition runs (prev : option list_item) (lists : list (str * N)) (its rest : list list_item) (p out : str) (c : counters) (s : pstate) : Prop :=
  exists lines last s2,
    list_lines T prev lists (its ++ rest) s = bind (list_lines T (Some last) (left_open (next_of rest) p) rest) (fun r => ret (lines ++ r)) s2 /\
    lines <> [] /\ join [10] lines = out /\ agrees c s2 /\ kept s s2 /\ starry (Some last) /\ within (Some last) (List.length p).
Lemma lines_cons prev lists it its s : list_lines T prev lists (it :: its) s =
  bind (list_line T prev (next_of its) lists it) (fun r => bind (list_lines T (Some it) (fst r) its) (fun rest => ret (snd r :: rest))) s.
Proof. reflexivity. Qed.
Lemma left_next next p q : (match next with Some n => n <= List.length p | None => True end)%nat -> left_open next (p ++ [q]) = left_open next p.
Proof.
  intros H. rewrite left_snoc, closes_lt; [apply app_nil_r|]. destruct next; [|exact I]. rewrite app_length. cbn. lia.
Qed.
Lemma bind_assoc_app (x : M (list str)) a b s :
  bind (bind x (fun r => ret (b ++ r))) (fun r => ret (a ++ r)) s = bind x (fun r => ret ((a ++ b) ++ r)) s.
Proof. unfold bind. destruct (x s); [|reflexivity|reflexivity]. unfold ret. rewrite app_assoc. reflexivity. Qed.

Definition item_spec (i : item) : Prop := forall p pre prev lists st s s1 c,
  path p -> p <> [] -> good_item i ->
  line_ok prev lists (mk_li [] (match i with Item t _ _ => t end) p st) pre (match i with Item t _ _ => t end) p s s1 ->
  agrees c s1 -> kept s s1 -> forall rest, ends_at rest (List.length p) ->
  match below (List.length p - 1) p i c with
  | None => list_lines T prev lists (flat p st i ++ rest) s = Panic Overflow
  | Some (x, c2) => runs prev lists (flat p st i) rest p
                      (pre ++ x ++ chain (tabs (last_indent (List.length p - 1) i)) (next_of rest) p) c2 s
  end.
Lemma items_run k q : path q -> forall l i pre prev lists st s s1 c, Forall item_spec (i :: l) -> Forall good_item (i :: l) ->
  line_ok prev lists (mk_li [] (match i with Item t _ _ => t end) (q ++ [mark_of k]) st) pre (match i with Item t _ _ => t end) (q ++ [mark_of k]) s s1 ->
  agrees c s1 -> kept s s1 -> forall rest, ends_at rest (List.length q) ->
  match below (List.length q) (q ++ [mark_of k]) i c with
  | None => list_lines T prev lists ((flat (q ++ [mark_of k]) st i ++ flat_map (flat (q ++ [mark_of k]) []) l) ++ rest) s = Panic Overflow
  | Some (x, c2) =>
      match run_items (item_html (List.length q) k (q ++ [mark_of k])) l c2 with
      | None => list_lines T prev lists ((flat (q ++ [mark_of k]) st i ++ flat_map (flat (q ++ [mark_of k]) []) l) ++ rest) s = Panic Overflow
      | Some (xs, c3) =>
          runs prev lists (flat (q ++ [mark_of k]) st i ++ flat_map (flat (q ++ [mark_of k]) []) l) rest (q ++ [mark_of k])
            (join [10] ((pre ++ x) :: xs) ++ chain (tabs (of_last (last_indent (List.length q)) (last_indent (List.length q) i) l)) (next_of rest) (q ++ [mark_of k])) c3 s
      end
  end.
Proof.
  intros Hq. set (p := q ++ [mark_of k]). assert (Hp : path p) by (apply path_snoc; exact Hq).
  assert (Hl : List.length p = S (List.length q)) by (unfold p; rewrite app_length; cbn; lia).
  assert (Hd : (List.length p - 1)%nat = List.length q) by lia.
  assert (Hne : p <> []) by (unfold p; destruct q; discriminate).
  induction l as [|j l IH]; intros i pre prev lists st s s1 c HS HG HL HC HK rest HE.
  - inversion HS as [|? ? Si _]; subst. inversion HG as [|? ? Gi _]; subst.
    specialize (Si p pre prev lists st s s1 c Hp Hne Gi HL HC HK rest).
    rewrite Hd in Si. cbn [flat_map]. rewrite app_nil_r.
    destruct (below (List.length q) p i c) as [[x c2]|]; cbn [run_items of_last join].
    + rewrite <- app_assoc. apply Si. destruct rest; [exact I|]. cbn in *. lia.
    + apply Si. destruct rest; [exact I|]. cbn in *. lia.
  - inversion HS as [|? ? Si HS']; subst. inversion HG as [|? ? Gi HG']; subst.
    cbn [flat_map]. set (more := flat p [] j ++ flat_map (flat p []) l).
    specialize (Si p pre prev lists st s s1 c Hp Hne Gi HL HC HK (more ++ rest)).
    assert (Hm : exists t k' sub its, j = Item t k' sub /\ more ++ rest = mk_li [] t p [] :: its).
    { destruct j as [t k' sub]. exists t, k', sub. unfold more. cbn [flat app]. eexists. split; reflexivity. }
    destruct Hm as (t & k' & sub & its & Ej & Em).
    assert (HE2 : ends_at (more ++ rest) (List.length p)) by (rewrite Em; cbn; unfold li_level; cbn; lia).
    specialize (Si HE2). rewrite Hd in Si. rewrite <- app_assoc.
    destruct (below (List.length q) p i c) as [[x c2]|]; [|exact Si].
    destruct Si as (lines1 & last & s2 & E1 & N1 & J1 & A1 & K1 & S1 & W1).
    assert (Nx : next_of (more ++ rest) = Some (List.length p)) by (rewrite Em; reflexivity).
    rewrite Nx in *. rewrite chain_deep in J1 by lia. rewrite app_nil_r in J1. rewrite left_deep in E1 by lia.
    cbn [run_items]. rewrite item_html_eq.
    inversion HG' as [|? ? Gj _]; subst j. pose proof Gj as Gj0. apply good_sub in Gj0 as (Tt & Tn & _ & _).
    assert (W2 : within (Some last) (S (List.length q))) by (rewrite <- Hl; exact W1).
    pose proof (line_next (Some last) q k t s2 c2 Hq W2 S1 A1 Tt Tn) as LN. fold p in LN.
    destruct (take_number k p c2) as [c2'|].
    + destruct LN as (s3 & A3 & K3 & L3).
      specialize (IH (Item t k' sub) (tabs (List.length q) ++ tab ++ u "<li>") (Some last) (opens p) [] s2 s3 c2' HS' HG' L3 A3 K3 rest HE).
      fold more in IH.
      destruct (below (List.length q) p (Item t k' sub) c2') as [[y c4]|].
      * destruct (run_items (item_html (List.length q) k p) l c4) as [[ys c5]|].
        -- destruct IH as (lines2 & last2 & s4 & E2 & N2 & J2 & A2 & K2 & S2 & W3).
           exists (lines1 ++ lines2), last2, s4. repeat apply conj.
           ++ rewrite <- app_assoc, E1. unfold bind at 1. rewrite E2. rewrite <- bind_assoc_app. reflexivity.
           ++ destruct lines1; [contradiction|discriminate].
           ++ rewrite join_app_nl by assumption. rewrite J1, J2. cbn [of_last].
              rewrite <- !app_assoc. cbn [join app]. rewrite <- !app_assoc. reflexivity.
           ++ exact A2.
           ++ eapply kept_trans; [exact K1|exact K2].
           ++ exact S2.
           ++ exact W3.
        -- rewrite E1. unfold bind. rewrite IH. reflexivity.
      * rewrite E1. unfold bind. rewrite IH. reflexivity.
    + rewrite E1. rewrite Em. unfold bind at 1. rewrite lines_cons. unfold bind at 1. rewrite LN. reflexivity.
Qed.
Lemma item_runs i : item_spec i.
Proof.
  induction i as [t k sub IH] using item_induction.
  intros p pre prev lists st s s1 c Hp Hne HG HL HC HK rest HE. cbn [below flat].
  apply good_sub in HG as (Tt & Tn & Kf & Gs).
  assert (Hpos : (1 <= List.length p)%nat) by (destruct p; [contradiction|cbn; lia]).
  destruct sub as [|i l].
  - exists [(pre ++ shown (next_of rest) p t)], (mk_li [] t p st), s1. repeat apply conj.
    + cbn [app]. rewrite lines_cons. unfold bind at 1. rewrite HL. reflexivity.
    + discriminate.
    + cbn [join last_indent of_last]. unfold shown. 
      replace (match next_of rest with Some l => (l <=? List.length p)%nat | None => true end) with true.
      * rewrite <- !app_assoc. reflexivity.
      * destruct rest as [|r rest]; [reflexivity|]. cbn in *. symmetry. apply Nat.leb_le. exact HE.
    + exact HC.
    + exact HK.
    + exact Hp.
    + cbn. unfold li_level. cbn. lia.
  - cbv zeta. set (p' := p ++ [mark_of k]).
    assert (Hl' : List.length p' = S (List.length p)) by (unfold p'; rewrite app_length; cbn; lia).
    replace (S (List.length p - 1)) with (List.length p) by lia.
    set (its := (flat p' (first_suffix k) i ++ flat_map (flat p' []) l)).
    set (me := mk_li [] t p st).
    assert (Nx : next_of (its ++ rest) = Some (S (List.length p))).
    { unfold its. destruct i as [ti ki si]. cbn [flat app next_of hd_error option_map]. unfold li_level. cbn [li_tl]. rewrite Hl'. reflexivity. }
    assert (Ln : list_line T prev (Some (S (List.length p))) lists me s = Ret (opens p, pre ++ t) s1).
    { unfold me. rewrite HL. rewrite left_deep by lia. unfold shown. rewrite chain_deep by lia.
      replace (S (List.length p) <=? List.length p)%nat with false by (symmetry; apply Nat.leb_gt; lia). rewrite !app_nil_r. reflexivity. }
    assert (Ab : above (Some me) (S (List.length p))) by (cbn; unfold li_level; cbn; lia).
    destruct i as [ti ki si] eqn:Ei. inversion Gs as [|? ? Gi _]; subst. pose proof Gi as Gi0. apply good_sub in Gi0 as (Ti & Ni & _ & _).
    pose proof (line_first (Some me) p k ti s1 c Hp Ab Hp Kf HC Ti Ni) as LF. fold p' in LF.
    destruct (opening k p' c) as [tag c1] eqn:Eo. cbn [fst snd] in LF.
    cbn [run_items]. rewrite item_html_eq.
    destruct (take_number k p' c1) as [c2|].
    + destruct LF as (s2 & A2 & K2 & L2).
      assert (HE2 : ends_at rest (List.length p)) by exact HE.
      pose proof (items_run k p Hp l (Item ti ki si) _ (Some me) (opens p) (first_suffix k) s1 s2 c2 IH Gs L2 A2 K2 rest HE2) as R.
      fold p' in R. fold its in R.
      destruct (below (List.length p) p' (Item ti ki si) c2) as [[x c3]|].
      * destruct (run_items (item_html (List.length p) k p') l c3) as [[xs c4]|].
        -- destruct R as (lines & last & s3 & E3 & N3 & J3 & A3 & K3 & S3 & W3).
           exists ((pre ++ t) :: lines), last, s3. repeat apply conj.
           ++ cbn [app]. rewrite lines_cons, Nx. unfold bind at 1. rewrite Ln. cbn [fst snd]. unfold bind at 1. rewrite E3.
              unfold p'. rewrite left_next; [|destruct rest; [exact I|exact HE]]. unfold bind.
              destruct (list_lines T (Some last) (left_open (next_of rest) p) rest s3); reflexivity.
           ++ discriminate.
           ++ change ((pre ++ t) :: lines) with ([pre ++ t] ++ lines). rewrite join_app_nl by (assumption || discriminate).
              change (join [10] [pre ++ t]) with (pre ++ t). rewrite J3. cbn [last_indent of_last].
              assert (JX : forall a b (ys : list str), join [10] ((a ++ b) :: ys) = a ++ join [10] (b :: ys)).
              { intros a b ys. destruct ys as [|y ys]; [reflexivity|]. cbn [join]. rewrite <- app_assoc. reflexivity. }
              rewrite (JX (tabs (List.length p) ++ tag ++ nl ++ tabs (List.length p) ++ tab ++ u "<li>") x xs).
              assert (JY : join [10] ((tabs (List.length p) ++ tab ++ u "<li>" ++ x) :: xs) = (tabs (List.length p) ++ tab ++ u "<li>") ++ join [10] (x :: xs)) by (rewrite <- JX, <- !app_assoc; reflexivity).
              unfold str in JY |- *. rewrite JY.
              replace (S (List.length p - 1)) with (List.length p) by lia. unfold p'. rewrite chain_snoc.
              rewrite closes_lt by (rewrite app_length; cbn [List.length]; destruct rest as [|r0 rest0]; [exact I|cbn in HE |- *; lia]).
              replace (1 <? List.length (p ++ [mark_of k]))%nat with true by (symmetry; apply Nat.ltb_lt; rewrite app_length; cbn; lia).
              rewrite list_type_path by exact Hp.
              unfold nl. repeat (rewrite <- !app_assoc || cbn [app]). destruct k; reflexivity.
           ++ exact A3.
           ++ eapply kept_trans; [exact HK|exact K3].
           ++ exact S3.
           ++ cbn in *. lia.
        -- cbn [app]. rewrite lines_cons, Nx. unfold bind at 1. rewrite Ln. cbn [fst snd]. unfold bind at 1. rewrite R. reflexivity.
      * cbn [app]. rewrite lines_cons, Nx. unfold bind at 1. rewrite Ln. cbn [fst snd]. unfold bind at 1. rewrite R. reflexivity.
    + cbn [app]. rewrite lines_cons, Nx. unfold bind at 1. rewrite Ln. cbn [fst snd]. unfold bind at 1.
      unfold its. cbn [flat app]. rewrite lines_cons. unfold bind at 1. rewrite LF. reflexivity.
Qed.
(** The items of a whole list. *)
Lemma list_runs k i l s c : Forall good_item (i :: l) -> numbers_fit k -> agrees c s ->
  let its := flat [mark_of k] (first_suffix k) i ++ flat_map (flat [mark_of k] []) l in
  match list_html k (i :: l) c with
  | None => list_lines T None [] its s = Panic Overflow
  | Some (x, c') => exists lines s', list_lines T None [] its s = Ret lines s' /\ join [10] lines = x /\ agrees c' s' /\ kept s s'
  end.
Proof.
  intros HG Kf HC its. unfold list_html.
  destruct i as [ti ki si] eqn:Ei. inversion HG as [|? ? Gi _]; subst. pose proof Gi as Gi0. apply good_sub in Gi0 as (Ti & Ni & _ & _).
  assert (P0 : path []) by constructor.
  pose proof (line_first None [] k ti s c P0 I I Kf HC Ti Ni) as LF. cbn [app List.length] in LF.
  destruct (opening k [mark_of k] c) as [tag c1]. cbn [fst snd] in LF. cbn [run_items]. rewrite item_html_eq.
  destruct (take_number k [mark_of k] c1) as [c2|].
  - destruct LF as (s2 & A2 & K2 & L2).
    assert (SP : Forall item_spec (Item ti ki si :: l)) by (apply Forall_forall; intros; apply item_runs).
    pose proof (items_run k [] P0 l (Item ti ki si) _ None (opens []) (first_suffix k) s s2 c2 SP HG L2 A2 K2 [] I) as R.
    cbn [app List.length] in R. rewrite app_nil_r in R. fold its in R.
    destruct (below 0 [mark_of k] (Item ti ki si) c2) as [[x c3]|]; [|exact R].
    destruct (run_items (item_html 0 k [mark_of k]) l c3) as [[xs c4]|]; [|exact R].
    destruct R as (lines & last & s3 & E3 & N3 & J3 & A3 & K3 & _ & _).
    exists lines, s3. rewrite app_nil_r in E3. repeat apply conj.
    + change (opens []) with (@nil (str * N)) in E3. rewrite E3. cbn [list_lines]. unfold bind, ret. rewrite app_nil_r. reflexivity.
    + rewrite J3. change [mark_of k] with ([] ++ [mark_of k]) at 1. rewrite chain_snoc. cbn [closes next_of hd_error option_map].
      cbn [app List.length Nat.ltb Nat.leb]. pose proof (list_type_path [] k P0) as LT. cbn [app] in LT. rewrite LT. unfold chain. cbn [opens pres map rev filter flat_map of_last]. rewrite !app_nil_r.
      assert (JX : forall a b (ys : list str), join [10] ((a ++ b) :: ys) = a ++ join [10] (b :: ys)).
      { intros a b ys. destruct ys as [|y ys]; [reflexivity|]. cbn [join]. rewrite <- app_assoc. reflexivity. }
      rewrite (JX (tabs 0 ++ tag ++ nl ++ tabs 0 ++ tab ++ u "<li>") x xs).
      assert (JY : join [10] ((tabs 0 ++ tab ++ u "<li>" ++ x) :: xs) = (tabs 0 ++ tab ++ u "<li>") ++ join [10] (x :: xs)) by (rewrite <- JX, <- !app_assoc; reflexivity).
              unfold str in JY |- *. rewrite JY.
      replace (u "</" ++ match k with Bullets => u "ul" | Numbers _ => u "ol" end ++ u ">") with (closing k) by (destruct k; reflexivity).
      unfold nl. cbn [tabs List.repeat]. repeat (rewrite <- !app_assoc || cbn [app]). destruct k; reflexivity.
    + exact A3.
    + exact K3.
  - unfold its. cbn [flat app]. rewrite lines_cons. unfold bind at 1. change (@nil (str * N)) with (opens []). rewrite LF. reflexivity.
Qed.
End Lines.
