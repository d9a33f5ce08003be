(** Documents of lists. *)
From Coq Require Import ZArith.
From Verif Require Import Str Unicode Regex RegexParse RegexSnips RegexTheory RegexAuto RegexGroups Lib ModelBase ModelHtml ModelUrl
  ModelAttrs ModelInline ModelParser SpecRegex ProofRegex SpecHtml ProofHtml ProofCharref SpecParse ProofParse Logic ProofWalk ProofState SpecState ProofMemory ProofCache ProofLinks ProofSpan ProofDoc
  SpecPlain ProofPlain SpecNewlines ProofNewlines ProofParas ProofTags ProofSections ProofBlocks ProofStateEx SpecDoc ProofDocument SpecText ProofText ProofPieces ProofWeave SpecLists ProofLists ProofListText.
#[local] Arguments u : simpl never.

(** ** The shapes of source and result *)
Definition marks_a : list trans :=
  [(40, one_of (u "*#"), 41); (41, one_of (u "*#"), 41); (41, blank, 1); (41, one_of (u "_"), 43); (43, blank, 1); (41, digit, 44); (44, digit, 44); (44, blank, 1)]%nat.
Definition source_a : auto := Eval vm_compute in mk_auto
  (au_trans item_text ++ map (fun q => (q, newline, 40%nat)) (au_final item_text) ++ marks_a) 40%nat (au_final item_text).
(** After the first opening tag of an item, before the last closing tag. *)
Definition inner_a : auto := Eval vm_compute in mk_auto
  (au_trans item_text ++ flat_map (fun q => (q, newline, 50%nat) :: reads q 60 (u "</li>") 52) (au_final item_text)
   ++ [(50, one_of tab, 51); (51, one_of tab, 51)]%nat ++ reads 51 70 (u "<li>") 1 ++ reads 51 80 (u "<ul>") 53 ++ reads 51 90 (u "<ol>") 53
   ++ reads 51 100 (u "<ol start=""") 54 ++ [(54, digit, 54)]%nat ++ reads 54 120 (u """>") 53 ++ [(53, newline, 50)]%nat
   ++ reads 51 130 (u "</ul>") 55 ++ reads 51 140 (u "</ol>") 55 ++ reads 55 150 (u "</li>") 52 ++ [(52, newline, 50)])%nat 1%nat (55%nat :: au_final item_text).
Definition outer_a : auto := Eval vm_compute in mk_auto
  (au_trans inner_a ++ reads 160 161 (u "<ul>") 53 ++ reads 160 171 (u "<ol>") 53 ++ reads 160 181 (u "<ol start=""") 54
   ++ [(52, newline, 56); (56, one_of tab, 56)]%nat ++ reads 56 200 (u "</ul>") 57 ++ reads 56 210 (u "</ol>") 57) 160%nat [57%nat].

Lemma tabs_run A q q' n rest : mem q' (walk A [q] [9]) = true -> mem q' (walk A [q'] [9]) = true -> Suf A q' rest -> Suf A q (tabs (S n) ++ rest).
Proof.
  intros H1 H2 H. assert (G : forall n, Suf A q' (tabs n ++ rest)).
  { induction n0 as [|n0 IH]; [exact H|]. change (tabs (S n0) ++ rest) with ([9] ++ tabs n0 ++ rest). apply (walk_to A q' q' [9]); auto. }
  change (tabs (S n) ++ rest) with ([9] ++ tabs n ++ rest). apply (walk_to A q q' [9]); auto.
Qed.
Lemma digits_run A q w rest : (forall d, in_cls digit d = true -> mem q (walk A [q] [d]) = true) -> forallb (in_cls digit) w = true -> Suf A q rest -> Suf A q (w ++ rest).
Proof.
  intros Hd Hw H. induction w as [|d w IH]; [exact H|]. cbn [forallb] in Hw. apply andb_prop in Hw as [H1 H2]. change ((d :: w) ++ rest) with ([d] ++ w ++ rest).
  apply (walk_to A q q [d]); auto.
Qed.
Lemma dec_digit n : forallb (in_cls digit) (dec n) = true.
Proof.
  pose proof (dec_digits n) as D. rewrite Forall_forall in D. apply forallb_forall. intros x Hx. apply D in Hx. apply range_digit in Hx.
  assert (forallb (in_cls digit) [48; 49; 50; 51; 52; 53; 54; 55; 56; 57] = true) as E by (vm_compute; reflexivity). rewrite forallb_forall in E. apply E, Hx.
Qed.
Lemma item_inner : incl (au_trans item_text) (au_trans inner_a).
Proof. intros x H. change (au_trans inner_a) with (au_trans item_text ++ skipn (List.length (au_trans item_text)) (au_trans inner_a)). apply in_or_app. left. exact H. Qed.
Lemma inner_outer : incl (au_trans inner_a) (au_trans outer_a).
Proof. intros x H. change (au_trans outer_a) with (au_trans inner_a ++ skipn (List.length (au_trans inner_a)) (au_trans outer_a)). apply in_or_app. left. exact H. Qed.
Lemma item_source : incl (au_trans item_text) (au_trans source_a).
Proof. intros x H. change (au_trans source_a) with (au_trans item_text ++ skipn (List.length (au_trans item_text)) (au_trans source_a)). apply in_or_app. left. exact H. Qed.
Lemma text_inner t w q rest : accepts item_text t -> forallb (fun f => mem q (walk inner_a [f] w)) (au_final item_text) = true -> Suf inner_a q rest -> Suf inner_a 1 (t ++ w ++ rest).
Proof.
  intros H Hf Hr. apply (tail_ok item_text 1 t H inner_a item_inner). intros f F. rewrite forallb_forall in Hf. eapply walk_to; [apply Hf; exact F|exact Hr].
Qed.
Lemma text_end t : accepts item_text t -> Suf inner_a 1 t.
Proof.
  intros H. rewrite <- (app_nil_r t). apply (tail_ok item_text 1 t H inner_a item_inner). intros f F. constructor. right. exact F.
Qed.
(** The HTML of items. *)
Definition grown (d : nat) (x : str) : Prop := exists b, x = tabs (S d) ++ u "<li>" ++ b ++ u "</li>" /\ Suf inner_a 1 b.
Lemma inner_after b w q rest : Suf inner_a 1 b -> forallb (fun f => mem q (walk inner_a [f] w)) (au_final inner_a) = true -> Suf inner_a q rest -> Suf inner_a 1 (b ++ w ++ rest).
Proof.
  intros H Hf Hr. apply (tail_ok inner_a 1 b H inner_a (fun x Hx => Hx)). intros f F. rewrite forallb_forall in Hf. eapply walk_to; [apply Hf; exact F|exact Hr].
Qed.
Lemma grown_join d l : Forall (grown d) l -> l <> [] -> grown d (join [10] l).
Proof.
  induction l as [|x l IH]; intros H Hn; [congruence|]. inversion H as [|? ? Hx Hl]; subst. destruct l as [|y l]; [exact Hx|].
  destruct IH as (b2 & E2 & S2); [exact Hl|discriminate|]. destruct Hx as (b & -> & Sb). change (join [10] ((tabs (S d) ++ u "<li>" ++ b ++ u "</li>") :: y :: l)) with ((tabs (S d) ++ u "<li>" ++ b ++ u "</li>") ++ [10] ++ join [10] (y :: l)).
  unfold str in *. rewrite E2. exists (b ++ (u "</li>" ++ [10]) ++ tabs (S d) ++ u "<li>" ++ b2). split; [rewrite <- !app_assoc; reflexivity|].
  apply (inner_after b _ 50%nat); [exact Sb|vm_compute; reflexivity|]. apply (tabs_run inner_a 50 51); [vm_compute; reflexivity|vm_compute; reflexivity|].
  apply (walk_to inner_a 51 1); [vm_compute; reflexivity|exact S2].
Qed.
Lemma opening_inner k p c rest : Suf inner_a 53 rest -> Suf inner_a 51 (fst (opening k p c) ++ rest).
Proof.
  intros H. assert (N : forall n, Suf inner_a 51 ((u "<ol start=""" ++ dec n ++ u """>") ++ rest)).
  { intros n. rewrite <- !app_assoc. apply (walk_to inner_a 51 54); [vm_compute; reflexivity|]. apply digits_run; [|apply dec_digit|].
    - apply (digit_cases (fun d => mem 54 (walk inner_a [54%nat] [d]))). vm_compute. reflexivity.
    - apply (walk_to inner_a 54 53); [vm_compute; reflexivity|exact H]. }
  destruct k as [|[| |]]; cbn [opening fst]; [| |apply N|apply N]; (apply (walk_to inner_a 51 53); [vm_compute; reflexivity|exact H]).
Qed.
Lemma last_deep i : forall d, (d <= last_indent d i)%nat.
Proof.
  induction i as [t k sub IH] using item_induction. intros d. cbn [last_indent]. assert (G : forall l n, Forall (fun i => forall d, (d <= last_indent d i)%nat) l -> (d <= n)%nat -> (d <= of_last (last_indent (S d)) n l)%nat).
  { induction l as [|i l IHl]; intros n H Hn; [exact Hn|]. inversion H as [|? ? Hi Hl]; subst. cbn [of_last]. apply IHl; [exact Hl|]. specialize (Hi (S d)). lia. }
  apply G; auto.
Qed.
Lemma last_deep_list l : forall d n, (d <= n)%nat -> (d <= of_last (last_indent d) n l)%nat.
Proof. induction l as [|i l IH]; intros d n H; [exact H|]. cbn [of_last]. apply IH. apply last_deep. Qed.
Lemma run_items_all (f : item -> counters -> option (str * counters)) (P : str -> Prop) l : (forall i c x c', In i l -> f i c = Some (x, c') -> P x) ->
  forall c xs c', run_items f l c = Some (xs, c') -> Forall P xs /\ List.length xs = List.length l.
Proof.
  induction l as [|i l IH]; intros H c xs c' E; cbn [run_items] in E; [inversion E; auto|].
  destruct (f i c) as [[x c1]|] eqn:E1; [|discriminate]. destruct (run_items f l c1) as [[ys c2]|] eqn:E2; [|discriminate]. inversion E; subst.
  destruct (IH (fun i0 c0 x0 c0' Hi => H i0 c0 x0 c0' (or_intror Hi)) _ _ _ E2) as [F1 F2]. split; [constructor; [eapply H; [left; reflexivity|exact E1]|exact F1]|cbn; lia].
Qed.
Lemma item_grown i : (forall t, In t (texts i) -> accepts item_text t) -> forall d k p c x c', item_html d k p i c = Some (x, c') -> grown d x.
Proof.
  induction i as [t k' sub IH] using item_induction. intros Ht d k p c x c' E. cbn [item_html] in E. destruct (take_number k p c) as [c1|]; [|discriminate].
  assert (At : accepts item_text t) by (apply Ht; left; reflexivity).
  assert (Tb : forall w, tabs d ++ u "	<li>" ++ w = tabs (S d) ++ u "<li>" ++ w).
  { intros w. change (u "	<li>") with ([9] ++ u "<li>"). rewrite <- !app_assoc. rewrite app_assoc. f_equal. unfold tabs. change [9] with (List.repeat 9 1). rewrite <- repeat_app. f_equal. lia. }
  destruct sub as [|i l].
  - inversion E; subst. exists t. split; [apply Tb|apply text_end, At].
  - set (sub := i :: l) in *. set (p' := p ++ [mark_of k']) in *. destruct (opening k' p' c1) as [tag c2] eqn:Eo.
    destruct (run_items (item_html (S d) k' p') sub c2) as [[lines c3]|] eqn:Er; [|discriminate]. inversion E; subst x c'. clear E.
    assert (G : Forall (grown (S d)) lines /\ List.length lines = List.length sub).
    { eapply run_items_all; [|exact Er]. intros i0 c0 x0 c0' Hi E0. rewrite Forall_forall in IH. eapply (IH i0 Hi); [|exact E0]. intros t0 H0. apply Ht. cbn [texts]. right. apply in_flat_map. eauto. }
    destruct G as [G1 G2]. destruct (grown_join (S d) lines G1) as (B & EB & SB). { intros ->. subst sub. discriminate. }
    unfold str in *. rewrite EB. pose proof (last_deep_list sub (S d) (S d) (le_n _)) as Hd. change (of_last (last_indent (S d)) (S d) sub) with (of_last (last_indent (S d)) (last_indent (S d) i) l) in Hd. destruct (of_last (last_indent (S d)) (last_indent (S d) i) l) as [|m] eqn:Em; [lia|].
    exists (t ++ [10] ++ tabs (S d) ++ tag ++ [10] ++ tabs (S (S d)) ++ u "<li>" ++ B ++ (u "</li>" ++ [10]) ++ tabs (S m) ++ closing k' ++ []). split.
    + etransitivity; [apply Tb|]. rewrite app_nil_r. rewrite <- !app_assoc. cbn [app]. reflexivity.
    + apply (text_inner t [10] 50); [exact At|vm_compute; reflexivity|]. apply (tabs_run inner_a 50 51); [vm_compute; reflexivity|vm_compute; reflexivity|].
      pose proof (opening_inner k' p' c1) as O. rewrite Eo in O. apply O. clear O. apply (walk_to inner_a 53 50); [vm_compute; reflexivity|]. apply (tabs_run inner_a 50 51); [vm_compute; reflexivity|vm_compute; reflexivity|].
      apply (walk_to inner_a 51 1); [vm_compute; reflexivity|]. apply (inner_after B _ 50%nat); [exact SB|vm_compute; reflexivity|].
      apply (tabs_run inner_a 50 51); [vm_compute; reflexivity|vm_compute; reflexivity|]. apply (walk_to inner_a 51 55); [destruct k'; vm_compute; reflexivity|]. constructor. left. reflexivity.
Qed.
Lemma list_grown k items c x c' : items <> [] -> (forall t, In t (flat_map texts items) -> accepts item_text t) -> list_html k items c = Some (x, c') ->
  exists b m, x = fst (opening k [mark_of k] c) ++ 10 :: tabs 1 ++ u "<li>" ++ b ++ u "</li>" ++ 10 :: tabs m ++ closing k /\ Suf inner_a 1 b.
Proof.
  intros Hn Ht E. unfold list_html in E. destruct (opening k [mark_of k] c) as [tag c2] eqn:Eo. destruct (run_items _ items c2) as [[lines c3]|] eqn:Er; [|discriminate]. inversion E; subst x c'. clear E.
  assert (G : Forall (grown 0) lines /\ List.length lines = List.length items).
  { eapply run_items_all; [|exact Er]. intros i0 c0 x0 c0' Hi E0. eapply item_grown; [|exact E0]. intros t0 H0. apply Ht. apply in_flat_map. eauto. }
  destruct G as [G1 G2]. destruct (grown_join 0 lines G1) as (B & EB & SB). { intros ->. destruct items; [congruence|discriminate]. }
  unfold str in *. rewrite EB. exists B, (of_last (last_indent 0) 0 items). split; [|exact SB]. cbn [fst]. rewrite <- !app_assoc. reflexivity.
Qed.
Lemma list_outer k p c b m : Suf inner_a 1 b -> accepts outer_a (fst (opening k p c) ++ 10 :: tabs 1 ++ u "<li>" ++ b ++ u "</li>" ++ 10 :: tabs m ++ closing k).
Proof.
  intros H. assert (R : Suf outer_a 53 (10 :: tabs 1 ++ u "<li>" ++ b ++ u "</li>" ++ 10 :: tabs m ++ closing k)).
  { change (10 :: tabs 1 ++ u "<li>" ++ b ++ u "</li>" ++ 10 :: tabs m ++ closing k) with ([10] ++ tabs 1 ++ u "<li>" ++ b ++ u "</li>" ++ 10 :: tabs m ++ closing k).
    apply (walk_to outer_a 53 50); [vm_compute; reflexivity|]. apply (tabs_run outer_a 50 51); [vm_compute; reflexivity|vm_compute; reflexivity|]. apply (walk_to outer_a 51 1); [vm_compute; reflexivity|].
    apply (tail_ok inner_a 1 b H outer_a inner_outer). assert (Z : Suf outer_a 56 (tabs m ++ closing k)).
    { assert (C : Suf outer_a 56 (closing k)) by (rewrite <- (app_nil_r (closing k)); apply (walk_to outer_a 56 57); [destruct k; vm_compute; reflexivity|constructor; left; reflexivity]).
      destruct m as [|m]; [exact C|]. apply (tabs_run outer_a 56 56); [vm_compute; reflexivity|vm_compute; reflexivity|exact C]. }
    assert (W : forallb (fun f => mem 56 (walk outer_a [f] (u "</li>" ++ [10]))) (au_final inner_a) = true) by (vm_compute; reflexivity). rewrite forallb_forall in W.
    intros f F. change (u "</li>" ++ 10 :: tabs m ++ closing k) with (u "</li>" ++ [10] ++ tabs m ++ closing k). rewrite app_assoc. eapply walk_to; [apply W, F|exact Z]. }
  unfold accepts. change (au_start outer_a) with 160%nat.
  assert (N : forall n rest, Suf outer_a 53 rest -> Suf outer_a 160 ((u "<ol start=""" ++ dec n ++ u """>") ++ rest)).
  { intros n rest Hr. rewrite <- !app_assoc. apply (walk_to outer_a 160 54); [vm_compute; reflexivity|]. apply digits_run; [|apply dec_digit|].
    - apply (digit_cases (fun d => mem 54 (walk outer_a [54%nat] [d]))). vm_compute. reflexivity.
    - apply (walk_to outer_a 54 53); [vm_compute; reflexivity|exact Hr]. }
  destruct k as [|[| |]]; cbn [opening fst]; [| |apply N, R|apply N, R]; (apply (walk_to outer_a 160 53); [vm_compute; reflexivity|exact R]).
Qed.

(** ** The source *)
Definition end_space : re := RSeq (RCls space_cls) (RAssert EOT).
Lemma item_small : forallb (never item_text) [end_space; start_cls space_cls; RCls (ch 10)] = true.
Proof. vm_compute. reflexivity. Qed.
Lemma space_ws c : in_cls space_cls c = is_ws c.
Proof. unfold in_cls, space_cls. cbn [c_neg c_items existsb in_item has_prop]. destruct (is_ws c); reflexivity. Qed.
Lemma item_text_ne t : accepts item_text t -> t <> [].
Proof. intros H ->. inversion H as [q F|]; subst. assert (mem (au_start item_text) (au_final item_text) = true) as E by (apply mem_in; exact F). vm_compute in E. discriminate. Qed.
Lemma item_text_10 t : accepts item_text t -> ~ In 10 t.
Proof. intros H. apply no_match_ch. eapply never_in; [apply item_small|exact H|cbn [In]; tauto]. Qed.
Lemma item_trim t : accepts item_text t -> trim t = t.
Proof.
  intros H. pose proof (item_text_ne t H) as Hn. assert (S1 : no_match (start_cls space_cls) t) by (eapply never_in; [apply item_small|exact H|cbn [In]; tauto]).
  assert (S2 : no_match end_space t) by (eapply never_in; [apply item_small|exact H|cbn [In]; tauto]).
  unfold trim, trim_by. destruct t as [|c t]; [congruence|]. apply no_start_cls in S1. rewrite space_ws in S1. cbn [trim_start_by]. rewrite S1.
  apply trim_end_by_id. intros r d E. destruct (is_ws d) eqn:Ed; [|reflexivity]. exfalso. specialize (S2 r [d] E). unfold match_at, end_space in S2. rewrite m_seq, m_cls, space_ws, Ed in S2.
  rewrite m_assert in S2. discriminate.
Qed.
Lemma flat_lines i : forall p st, item_lines p st i = map line_of (flat p st i).
Proof.
  induction i as [t k sub IH] using item_induction. intros p st. cbn [item_lines flat map]. f_equal. destruct sub as [|i l]; [reflexivity|]. inversion IH as [|? ? Hi Hl]; subst.
  rewrite map_app, Hi. f_equal. clear Hi IH. induction Hl as [|j l Hj Hl IHl]; [reflexivity|]. cbn [flat_map]. rewrite map_app, Hj, IHl. reflexivity.
Qed.
Definition ok_line (it : list_item) : Prop := line_item it /\ accepts item_text (li_content it).
Lemma first_suffix_ok k : suffix (first_suffix k).
Proof.
  destruct k as [|[|n|]]; cbn [first_suffix]; try constructor. pose proof (dec_digit n) as D. destruct (dec_spec n) as [Hn _]. destruct (dec n) as [|c w]; [congruence|]. constructor. exact D.
Qed.
Lemma path_snoc p k : path p -> path (p ++ [mark_of k]).
Proof. intros H. unfold path in *. apply Forall_app. split; [exact H|]. apply path_mark. Qed.
Lemma flat_ok i : (forall t, In t (texts i) -> accepts item_text t) -> forall p st, path p -> p <> [] -> suffix st -> Forall ok_line (flat p st i).
Proof.
  induction i as [t k sub IH] using item_induction. intros Ht p st Hp Hn Hs. assert (At : accepts item_text t) by (apply Ht; left; reflexivity). cbn [flat]. constructor.
  - split; [|exact At]. repeat split; auto. apply item_text_10. exact At.
  - destruct sub as [|i l]; [constructor|]. inversion IH as [|? ? Hi Hl]; subst. assert (Hp' : path (p ++ [mark_of k])) by (apply path_snoc; exact Hp).
    assert (Hn' : p ++ [mark_of k] <> []) by (destruct p; discriminate). apply Forall_app. split.
    + apply Hi; auto; [|apply first_suffix_ok]. intros t0 H0. apply Ht. cbn [texts flat_map]. right. apply in_or_app. auto.
    + apply Forall_flat_map. rewrite Forall_forall in Hl. apply Forall_forall. intros j Hj. apply (Hl j Hj); auto; [|constructor].
      intros t0 H0. apply Ht. cbn [texts flat_map]. right. apply in_or_app. right. apply in_flat_map. eauto.
Qed.
Definition list_flat (k : kind) (items : list item) : list list_item :=
  match items with [] => [] | i :: l => flat [mark_of k] (first_suffix k) i ++ flat_map (flat [mark_of k] []) l end.
Lemma source_flat k items : list_source k items = join [10] (map line_of (list_flat k items)).
Proof.
  destruct items as [|i l]; [reflexivity|]. unfold list_source, list_flat. rewrite map_app, flat_lines. do 2 f_equal. induction l as [|j l IH]; [reflexivity|]. cbn [flat_map]. rewrite map_app, flat_lines, IH. reflexivity.
Qed.
Lemma list_flat_ok k items : (forall t, In t (flat_map texts items) -> accepts item_text t) -> Forall ok_line (list_flat k items).
Proof.
  intros H. destruct items as [|i l]; [constructor|]. cbn [list_flat]. assert (Hn : [mark_of k] <> []) by discriminate. apply Forall_app. split.
  - apply flat_ok; auto using path_mark, first_suffix_ok. intros t Ht. apply H. cbn [flat_map]. apply in_or_app. auto.
  - apply Forall_flat_map. apply Forall_forall. intros j Hj. apply flat_ok; auto using path_mark; [|constructor]. intros t Ht. apply H. cbn [flat_map]. apply in_or_app. right. apply in_flat_map. eauto.
Qed.
Lemma line_source it rest : ok_line it -> (forall f, In f (au_final item_text) -> Suf source_a f rest) -> Suf source_a 40 (line_of it ++ rest).
Proof.
  intros [(Hp & Hn & Hs & _) Ht] Hr. unfold line_of. rewrite <- !app_assoc. rewrite <- app_comm_cons.
  assert (Tx : Suf source_a 1 (li_content it ++ rest)) by (apply (tail_ok item_text 1 _ Ht source_a item_source); exact Hr).
  assert (Sx : Suf source_a 41 (li_st it ++ 32 :: li_content it ++ rest)).
  { destruct Hs as [| |c w D].
    - apply (walk_to source_a 41 1 [32]); [vm_compute; reflexivity|exact Tx].
    - apply (walk_to source_a 41 1 [95; 32]); [vm_compute; reflexivity|exact Tx].
    - cbn [forallb] in D. apply andb_prop in D as [D1 D2]. change ((c :: w) ++ 32 :: li_content it ++ rest) with ([c] ++ w ++ [32] ++ li_content it ++ rest).
      apply (walk_to source_a 41 44 [c]). { revert c D1. apply (digit_cases (fun d => mem 44 (walk source_a [41%nat] [d]))). vm_compute. reflexivity. }
      apply digits_run; [|exact D2|].
      + apply (digit_cases (fun d => mem 44 (walk source_a [44%nat] [d]))). vm_compute. reflexivity.
      + apply (walk_to source_a 44 1 [32]); [vm_compute; reflexivity|exact Tx]. }
  assert (G : forall p, path p -> Suf source_a 41 (p ++ li_st it ++ 32 :: li_content it ++ rest)).
  { induction p as [|c p IH]; intros P; [exact Sx|]. inversion P as [|? ? [->| ->] P']; subst; [apply (walk_to source_a 41 41 [42])|apply (walk_to source_a 41 41 [35])]; auto; vm_compute; reflexivity. }
  destruct (li_tl it) as [|c p]; [congruence|]. inversion Hp as [|? ? Hc P']; subst. destruct Hc as [->| ->]; [apply (walk_to source_a 40 41 [42])|apply (walk_to source_a 40 41 [35])]; auto; vm_compute; reflexivity.
Qed.
Lemma lines_source l : Forall ok_line l -> l <> [] -> accepts source_a (join [10] (map line_of l)).
Proof.
  unfold accepts. change (au_start source_a) with 40%nat. induction l as [|i l IH]; intros H Hn; [congruence|]. inversion H as [|? ? Hi Hl]; subst. destruct l as [|j l].
  - cbn [map join]. rewrite <- (app_nil_r (line_of i)). apply line_source; auto. intros f F. constructor. exact F.
  - cbn [map]. change (join [10] (line_of i :: line_of j :: map line_of l)) with (line_of i ++ [10] ++ join [10] (map line_of (j :: l))). apply line_source; auto.
    assert (W : forallb (fun f => mem 40 (walk source_a [f] [10])) (au_final item_text) = true) by (vm_compute; reflexivity). rewrite forallb_forall in W.
    intros f F. eapply walk_to; [apply W, F|]. apply IH; auto. discriminate.
Qed.

(** ** Characters of the result *)
Definition even_width (c : N) : bool := (c =? 10) || same_width c.
Lemma even_stable c : even_width c = true -> stable c.
Proof.
  unfold even_width, same_width, stable. destruct (N.eqb_spec c 10) as [->|Hn]; [intros _; exists 10; repeat split; vm_compute; reflexivity|]. cbn [orb].
  destruct (lower_char c) as [|d [|]]; try discriminate. intros H. apply andb_prop in H as [H1 H2]. exists d. split; [reflexivity|]. split; [apply Nat.eqb_eq, H1|].
  intros ->. discriminate.
Qed.
Notation even := (forallb even_width).
Lemma even_app a b : even a = true -> even b = true -> even (a ++ b) = true.
Proof. intros A B. rewrite forallb_app, A, B. reflexivity. Qed.
Lemma even_tabs n : even (tabs n) = true.
Proof. induction n as [|n IH]; [reflexivity|]. change (tabs (S n)) with (9 :: tabs n). cbn [forallb]. rewrite IH. reflexivity. Qed.
Lemma even_dec n : even (dec n) = true.
Proof.
  apply forallb_forall. intros x Hx. pose proof (dec_digit n) as D. rewrite forallb_forall in D. apply D in Hx. revert x Hx. apply (digit_cases even_width). vm_compute. reflexivity.
Qed.
Lemma even_text t : forallb same_width t = true -> even t = true.
Proof. rewrite !forallb_forall. intros H x Hx. unfold even_width. rewrite (H x Hx). apply orb_true_r. Qed.
Lemma even_opening k p c : even (fst (opening k p c)) = true.
Proof.
  assert (N : forall n, even (u "<ol start=""" ++ dec n ++ u """>") = true) by (intros n; rewrite !forallb_app, even_dec; vm_compute; reflexivity).
  destruct k as [|[| |]]; cbn [opening fst]; [vm_compute; reflexivity|vm_compute; reflexivity|apply N|apply N].
Qed.
Lemma even_cons c l : even_width c = true -> even l = true -> even (c :: l) = true.
Proof. intros A B. cbn [forallb]. rewrite A, B. reflexivity. Qed.
Lemma even_join l : Forall (fun x => even x = true) l -> even (join [10] l) = true.
Proof.
  induction 1 as [|x l Hx Hl IH]; [reflexivity|]. destruct l as [|y l]; [exact Hx|]. change (join [10] (x :: y :: l)) with (x ++ [10] ++ join [10] (y :: l)). apply even_app; [exact Hx|]. apply even_app; [reflexivity|exact IH].
Qed.
Lemma even_closing k : even (closing k) = true.
Proof. destruct k; vm_compute; reflexivity. Qed.
Ltac evens := repeat (rewrite forallb_app || cbn [forallb]); rewrite ?even_tabs, ?even_closing.
Lemma even_item i : (forall t, In t (texts i) -> forallb same_width t = true) -> forall d k p c x c', item_html d k p i c = Some (x, c') -> even x = true.
Proof.
  induction i as [t k' sub IH] using item_induction. intros Ht d k p c x c' E. cbn [item_html] in E. destruct (take_number k p c) as [c1|]; [|discriminate].
  assert (At : even t = true) by (apply even_text, Ht; left; reflexivity). destruct sub as [|i l].
  - inversion E; subst. evens. rewrite At. vm_compute. reflexivity.
  - set (sub := i :: l) in *. set (p' := p ++ [mark_of k']) in *. pose proof (even_opening k' p' c1) as Ho. destruct (opening k' p' c1) as [tag c2] eqn:Eo. cbn [fst] in Ho.
    destruct (run_items (item_html (S d) k' p') sub c2) as [[lines c3]|] eqn:Er; [|discriminate]. inversion E; subst x c'. clear E.
    assert (G : Forall (fun x => even x = true) lines /\ List.length lines = List.length sub).
    { eapply run_items_all; [|exact Er]. intros i0 c0 x0 c0' Hi E0. rewrite Forall_forall in IH. eapply (IH i0 Hi); [|exact E0]. intros t0 H0. apply Ht. cbn [texts]. right. apply in_flat_map. eauto. }
    destruct G as [G _]. apply even_join in G. unfold str in *. evens. rewrite At, Ho, G. vm_compute. reflexivity.
Qed.
Lemma even_list k items c x c' : (forall t, In t (flat_map texts items) -> forallb same_width t = true) -> list_html k items c = Some (x, c') -> even x = true.
Proof.
  intros Ht E. unfold list_html in E. pose proof (even_opening k [mark_of k] c) as Ho. destruct (opening k [mark_of k] c) as [tag c2] eqn:Eo. cbn [fst] in Ho. destruct (run_items _ items c2) as [[lines c3]|] eqn:Er; [|discriminate]. inversion E; subst x c'. clear E.
  assert (G : Forall (fun x => even x = true) lines /\ List.length lines = List.length items).
  { eapply run_items_all; [|exact Er]. intros i0 c0 x0 c0' Hi E0. eapply even_item; [|exact E0]. intros t0 H0. apply Ht. apply in_flat_map. eauto. }
  destruct G as [G _]. apply even_join in G. unfold str in *. evens. rewrite Ho, G. vm_compute. reflexivity.
Qed.
(** Newlines inside are followed by tabs. *)
Definition nl_untabbed : re := RSeq (RCls (ch 10)) (RCls (mk_cls true [CRange 9 9])).
Lemma inner_newlines b : Suf inner_a 1 b -> forall v w, b = v ++ 10 :: w -> exists w', w = 9 :: w'.
Proof.
  intros H v w E. assert (K : forallb (never inner_a) [nl_untabbed; end_newline] = true) by (vm_compute; reflexivity).
  assert (N1 : no_match nl_untabbed b) by (eapply never_in; [exact K|exact H|cbn [In]; tauto]). assert (N2 : no_match end_newline b) by (eapply never_in; [exact K|exact H|cbn [In]; tauto]).
  specialize (N1 v (10 :: w) E). specialize (N2 v (10 :: w) E). unfold match_at, nl_untabbed, end_newline in *. rewrite m_seq, m_cls, in_ch, N.eqb_refl in N1, N2.
  destruct w as [|c w]; [rewrite m_assert in N2; discriminate|]. exists w. f_equal. destruct (N.eqb_spec c 9) as [|Hc]; auto. exfalso. rewrite m_cls in N1.
  assert (in_cls (mk_cls true [CRange 9 9]) c = true) as F; [|rewrite F in N1; discriminate]. unfold in_cls. cbn [c_neg c_items existsb in_item]. rewrite orb_false_r.
  destruct ((9 <=? c) && (c <=? 9)) eqn:Ec; [|reflexivity]. apply andb_prop in Ec as [E1 E2]. apply N.leb_le in E1, E2. lia.
Qed.
Lemma no_li_app a b : no_li a -> no_li b -> no_li (a ++ b).
Proof.
  intros A B x y E. apply app_eq_app in E as [l [[H1 H2]|[H1 H2]]].
  - destruct l as [|c l].
    + destruct (B [] y) as (z & y' & -> & Hz); [symmetry; exact H2|]. eauto.
    + inversion H2; subst c y. destruct (A x l) as (z & y' & -> & Hz); [exact H1|]. cbn [app]. eauto.
  - apply (B l y). exact H2.
Qed.
Fixpoint li_free (w : str) : bool := match w with [] => true | c :: w' => (if c =? 60 then match w' with x :: _ => negb (x =? 108) | [] => false end else true) && li_free w' end.
Lemma li_free_ok w : li_free w = true -> no_li w.
Proof.
  intros H a. revert w H. induction a as [|c a IH]; intros w H b ->; cbn [app li_free] in H; apply andb_prop in H as [H1 H2]; [|exact (IH _ H2 b eq_refl)].
  destruct b as [|x b]; [discriminate|]. exists x, b. split; [reflexivity|]. intros ->. discriminate.
Qed.
Lemma not_60_li w : ~ In 60 w -> no_li w.
Proof. intros H a b E. exfalso. apply H. rewrite E. apply in_or_app. right. apply in_eq. Qed.
Lemma tabs_60 n c : c <> 9 -> ~ In c (tabs n).
Proof. intros Hc H. apply repeat_spec in H. contradiction. Qed.
Lemma opening_no_li k p c : no_li (fst (opening k p c)).
Proof.
  assert (N : forall n, no_li (u "<ol start=""" ++ dec n ++ u """>")).
  { intros n. apply no_li_app; [apply li_free_ok; vm_compute; reflexivity|]. apply no_li_app; [|apply li_free_ok; vm_compute; reflexivity].
    apply not_60_li. intros H. pose proof (dec_digits n) as D. rewrite Forall_forall in D. apply D in H. lia. }
  destruct k as [|[| |]]; cbn [opening fst]; [apply li_free_ok; vm_compute; reflexivity|apply li_free_ok; vm_compute; reflexivity|apply N|apply N].
Qed.
Lemma closing_no_close k m : no_close (10 :: tabs m ++ closing k).
Proof.
  assert (exists x r, closing k = 60 :: 47 :: x :: r /\ x <> 108 /\ x <> 60 /\ ~ In 60 r) as (x & r & -> & Hx & Hx2 & Hr).
  { destruct k; [exists 117, (u "l>")|exists 111, (u "l>")]; (split; [reflexivity|]; split; [discriminate|]; split; [discriminate|]); intros F; apply (in_map (fun c => c =? 60)) in F; vm_compute in F; intuition discriminate. }
  intros a b E. change (10 :: tabs m ++ 60 :: 47 :: x :: r) with ((10 :: tabs m) ++ 60 :: 47 :: x :: r) in E. assert (~ In 60 (10 :: tabs m)) as Hp by (intros [F|F]; [discriminate|revert F; apply tabs_60; discriminate]).
  apply app_eq_app in E as [l [[H1 H2]|[H1 H2]]].
  - destruct l as [|c l]; [inversion H2; subst; eauto|]. inversion H2; subst c. exfalso. apply Hp. rewrite H1. apply in_or_app. right. apply in_eq.
  - destruct l as [|c l]; [inversion H2; subst; eauto|]. inversion H2 as [[Hc H3]]. exfalso. assert (In 60 (47 :: x :: r)) as F by (rewrite H3; apply in_or_app; right; apply in_eq).
    destruct F as [F|[F|F]]; [discriminate|contradiction|contradiction].
Qed.
Section Lists.
Variables (W : world) (T : textile).
Hypothesis uid_simple : simple_uid (t_uid T).
Hypothesis not_lite : t_lite T = false.
Let uid_ok : uid_plain (t_uid T) = true := uid_simple_plain _ uid_simple.
Notation br := (br_tag T).
Lemma tag_br_list k items c x c' : items <> [] -> (forall t, In t (flat_map texts items) -> accepts item_text t /\ forallb same_width t = true) ->
  list_html k items c = Some (x, c') -> leaves T (do_tag_br T (u "li") x) x.
Proof.
  intros Hn Ht E. destruct (list_grown k items c x c' Hn (fun t H => proj1 (Ht t H)) E) as (b & m & Ex & Hb). pose proof (even_list k items c x c' (fun t H => proj2 (Ht t H)) E) as Ev.
  assert (B : forall s, replace_allM (rx_re li_re) (f_tag_br T (u "li")) x s = Ret x s).
  { intros s. assert (x = (fst (opening k [mark_of k] c) ++ 10 :: tabs 1) ++ in_items b ++ 10 :: tabs m ++ closing k) as ->.
    { rewrite Ex. unfold in_items. change (u "<li>") with [60; 108; 105; 62]. change (u "</li>") with [60; 47; 108; 105; 62]. rewrite <- !app_assoc. cbn [app]. rewrite <- !app_assoc. reflexivity. }
    apply tag_br_items.
    - apply no_li_app; [apply opening_no_li|]. apply not_60_li. intros [F|F]; [discriminate|revert F; apply tabs_60; discriminate].
    - apply closing_no_close.
    - intros y Hy. apply even_stable. rewrite forallb_forall in Ev. apply Ev. unfold in_items. rewrite !in_app_iff. cbn [In]. rewrite in_app_iff. auto 10.
    - apply inner_newlines. exact Hb. }
  unfold do_tag_br. rewrite li_tag. apply (leaves_cached T 1060 (u "li") li_re (fun p => replace_allM (rx_re p) (f_tag_br T (u "li")) x)); [apply li_expected|exact B].
Qed.
Lemma list_flat_ne k items : items <> [] -> exists it l, list_flat k items = it :: l /\ li_tl it = [mark_of k] /\ li_st it = first_suffix k.
Proof. destruct items as [|[t k' sub] l]; [congruence|]. intros _. cbn [list_flat flat app]. eauto. Qed.
Lemma last_tailed_cons it l : exists it' l', last_tailed (it :: l) = it' :: l' /\ li_tl it' = li_tl it.
Proof. destruct l; cbn [last_tailed]; eexists _, _; split; reflexivity. Qed.
Lemma last_tailed_snoc l b : last_tailed (l ++ [b]) = l ++ last_tailed [b].
Proof. induction l as [|a l IH]; [reflexivity|]. cbn [app]. destruct (l ++ [b]) as [|y l'] eqn:E; [destruct l; discriminate|]. cbn [last_tailed] in *. rewrite IH. reflexivity. Qed.
Lemma last_li l : l <> [] -> Forall ok_line l -> last_litem (last_tailed l) = u "li".
Proof.
  intros Hn H. destruct (exists_last Hn) as (l0 & b & ->). rewrite last_tailed_snoc. unfold last_litem. cbn [last_tailed]. rewrite rev_app_distr. cbn [rev app li_tl].
  apply Forall_app in H as [_ H]. inversion H as [|? ? [(Hp & _) _] _]; subst. apply item_tag_path. exact Hp.
Qed.
Lemma good_of i : (forall t, In t (texts i) -> accepts item_text t) -> (forall k, In k (kinds i) -> fits k) -> good_item i.
Proof.
  induction i as [t k sub IH] using item_induction. intros Ht Hk. apply good_sub. assert (At : accepts item_text t) by (apply Ht; left; reflexivity).
  split; [apply item_trim, At|]. split; [apply item_text_ne, At|]. split; [apply (Hk k); left; reflexivity|]. rewrite Forall_forall in *. intros j Hj. apply (IH j Hj).
  - intros t0 H0. apply Ht. cbn [texts]. right. apply in_flat_map. eauto.
  - intros k0 H0. apply Hk. cbn [kinds]. right. apply in_flat_map. eauto.
Qed.
(** The state but for the memory of compiled expressions and the list counters, which is that of [s0]. *)
Definition frame (s : pstate) : pstate := set_ol_starts [] (set_cache [] s).
Variable s0 : pstate.
Definition good_state (c : counters) (s : pstate) : Prop := @cache_ok (own T) (ps_cache s) /\ ps_borrowed s = false /\ agrees c s /\ frame s = frame s0.
Lemma lists_stage k items c s : proper_list k items -> good_state c s ->
  match list_html k items c with
  | None => textile_lists T (list_source k items ++ nl ++ nl) s = Panic Overflow
  | Some (x, c') => exists s', textile_lists T (list_source k items ++ nl ++ nl) s = Ret x s' /\ good_state c' s'
  end.
Proof.
  intros (Hn & Ht & Hk) (C1 & C2 & C3 & C4). assert (Ha : forall t, In t (flat_map texts items) -> accepts item_text t) by (intros t H; apply Ht; exact H).
  pose proof (list_flat_ok k items Ha) as Hf. destruct (list_flat_ne k items Hn) as (it & l & El & Etl & Est).
  assert (Hl : Forall line_item (it :: l)). { rewrite <- El. eapply Forall_impl; [|exact Hf]. intros a [A _]. exact A. }
  assert (Hx : exists t, list_source k items ++ nl ++ nl = mark_of k :: first_suffix k ++ 32 :: t).
  { rewrite source_flat, El. cbn [map]. assert (exists r, join [10] (line_of it :: map line_of l) = line_of it ++ r) as (r & ->).
    { destruct l; [exists []; cbn; rewrite app_nil_r; reflexivity|]. eexists. reflexivity. }
    unfold line_of. rewrite Etl, Est. eexists. rewrite <- !app_assoc. cbn [app]. reflexivity. }
  destruct Hx as (t & Ex). destruct (list_whole k (first_suffix k) t [] (first_suffix_ok k) ltac:(intros ->; reflexivity) (or_introl eq_refl)) as (ms & M1 & M2). rewrite <- Ex in M1.
  assert (Es : segs (rx_re LIST_RE) (list_source k items ++ nl ++ nl) = [Hit (mk_hit_of (list_source k items ++ nl ++ nl) ms)]) by (rewrite Ex in *; apply segs_whole; auto).
  assert (Eh : h_text (mk_hit_of (list_source k items ++ nl ++ nl) ms) = list_source k items ++ nl ++ nl).
  { unfold mk_hit_of. cbn [h_text]. rewrite M2. rewrite <- (app_nil_r (list_source k items ++ nl ++ nl)) at 1. apply cap_str_app. }
  set (h := mk_hit_of (list_source k items ++ nl ++ nl) ms) in *.
  assert (Esp : split_rx LIST_SPLITTER (h_text h) = Some (with_tail (map line_of (it :: l)))).
  { rewrite Eh. unfold split_rx, segs. change (rx_len LIST_SPLITTER) with 1%nat. rewrite source_flat, El. change (nl ++ nl) with tail2. rewrite lsplit_lines by exact Hl.
    destruct (with_tail (map line_of (it :: l))) as [|y ys] eqn:Ew; [|reflexivity]. destruct l; discriminate. }
  assert (Er : read_items (with_tail (map line_of (it :: l))) = last_tailed (it :: l)) by (apply read_all; exact Hl).
  pose proof (last_li (it :: l)) as Ell. specialize (Ell ltac:(discriminate)). rewrite <- El in Ell at 1. specialize (Ell Hf).
  pose proof (list_lines_same T _ _ (last_same (it :: l)) None None [] s I) as Esame.
  assert (Ef : forall s, f_textile_list T h s = bind (list_lines T None [] (last_tailed (it :: l))) (fun out => do_tag_br T (u "li") (join nl out)) s).
  { intros s1. unfold f_textile_list, splitM. rewrite Esp. cbn [of_opt]. rewrite bind_ret. rewrite Er, Ell. destruct (last_tailed_cons it l) as (it' & l' & -> & E'). unfold li_level. unfold str in *. rewrite E', Etl. reflexivity. }
  assert (Et : forall s, textile_lists T (list_source k items ++ nl ++ nl) s = bind (f_textile_list T h) (fun x => ret x) s).
  { intros s1. unfold textile_lists, replace_allM. rewrite Es. cbn [mapM replace_segM]. unfold bind, ret. destruct (f_textile_list T h s1); [|reflexivity|reflexivity]. cbn [List.concat]. rewrite app_nil_r. reflexivity. }
  assert (Step : textile_lists T (list_source k items ++ nl ++ nl) s = bind (list_lines T None [] (it :: l)) (fun out => bind (do_tag_br T (u "li") (join nl out)) (fun x => ret x)) s).
  { rewrite Et. unfold bind. rewrite Ef. unfold bind. rewrite Esame. destruct (list_lines T None [] (it :: l) s); reflexivity. }
  clear Esame Ef Et Er Esp. rename Step into Et.
  destruct items as [|i items']; [congruence|]. cbn [list_flat] in El.
  assert (Hg : Forall good_item (i :: items')).
  { apply Forall_forall. intros j Hj. apply good_of; [intros t0 H0; apply Ha; apply in_flat_map; eauto|intros k0 H0; apply Hk; right; apply in_flat_map; eauto]. }
  pose proof (list_runs T k i items' s c Hg (Hk k (or_introl eq_refl)) C3) as R. cbv zeta in R. rewrite El in R.
  destruct (list_html k (i :: items') c) as [[x c']|] eqn:Eh2; [|rewrite Et; unfold bind; rewrite R; reflexivity].
  destruct R as (lines & s' & R1 & R2 & R3 & R4). unfold ProofLists.kept in R4.
  destruct (tag_br_list k (i :: items') c x c' Hn Ht Eh2 s') as (c2 & Hc2 & E2); [rewrite R4; exact C1|rewrite R4; exact C2|].
  exists (set_cache c2 s'). split; [rewrite Et; unfold bind; rewrite R1; change nl with [10]; rewrite R2, E2; reflexivity|]. split; [exact Hc2|]. split; [rewrite R4; exact C2|]. split; [exact R3|]. rewrite R4. exact C4.
Qed.

(** ** The other stages *)
Lemma source_inert : forallb (fun r => never source_a (rx_re r)) [SPECIAL_NOTEXTILE; SPECIAL_EQ; SPECIAL_CODE; SPECIAL_AT; SPECIAL_PRE; SPECIAL_COMMENT; RESTRICTED_URLREF_RE; UNRESTRICTED_URLREF_RE; QUOTED_QUOTE_RE; SLICE_RE; IMAGE_RE; TEXTILE_TAG_RE; DIVIDER_RE; NOTEDEF_RE] = true.
Proof. vm_compute. reflexivity. Qed.
Lemma source_tailed : forallb (fun r => never (tailed_of source_a) (rx_re r)) [TABLE_RE; RC_PATTERN] = true.
Proof. vm_compute. reflexivity. Qed.
Lemma source_small : forallb (never source_a) small_re = true.
Proof. vm_compute. reflexivity. Qed.
Lemma outer_inert : forallb (fun r => never outer_a (rx_re r)) ([FOOTNOTE_RE; NOTEREF_RE; BR_TAG_RE; PBR_TAG_RE] ++ TAG_PATTERNS) = true.
Proof. vm_compute. reflexivity. Qed.
Definition in_tag : list nat := Eval vm_compute in (54%nat :: seq 60 100 ++ seq 161 60).
Lemma outer_tagged : tagged outer_a in_tag = true.
Proof. vm_compute. reflexivity. Qed.
Lemma leaves_step {A B} (m : M A) (k : A -> M B) x c s : leaves T m x -> good_state c s -> exists s', bind m k s = k x s' /\ good_state c s'.
Proof.
  intros H (C1 & C2 & C3). destruct (H s C1 C2) as (c2 & Hc & E). exists (set_cache c2 s). split; [unfold bind; rewrite E; reflexivity|]. split; [exact Hc|]. split; [exact C2|exact C3].
Qed.
Lemma source_piece k items : proper_list k items -> accepts source_a (list_source k items) /\ piece_of T (list_source k items).
Proof.
  intros (Hn & Ht & _). assert (H : accepts source_a (list_source k items)).
  { rewrite source_flat. apply lines_source; [apply list_flat_ok; intros t Hi; apply Ht; exact Hi|]. destruct (list_flat_ne k items Hn) as (it & l & -> & _). discriminate. }
  split; [exact H|]. assert (B : forall r, In r small_re -> no_match r (list_source k items)) by (intros r Hr; eapply never_in; [exact source_small|exact H|exact Hr]).
  assert (R : forall r, In r [TEXTILE_TAG_RE; DIVIDER_RE; NOTEDEF_RE] -> no_match (rx_re r) (list_source k items)) by (intros r Hr; eapply never_rx; [exact source_inert|exact H|cbn [In] in *; tauto]).
  constructor.
  - apply firm_of; apply B; cbn [In small_re]; tauto.
  - intros _. apply esc_id; apply no_match_ch, B; cbn [In small_re]; tauto.
  - apply lead_absent; auto. apply B; cbn [In small_re]; tauto.
  - rewrite not_lite. apply R. cbn [In]; tauto.
  - apply R. cbn [In]; tauto.
  - apply R. cbn [In]; tauto.
  - destruct (list_flat_ne k items Hn) as (it & l & El & Etl & _). rewrite source_flat, El. cbn [map]. assert (exists r, join [10] (line_of it :: map line_of l) = mark_of k :: r) as (r & ->).
    { destruct l; unfold line_of; unfold str in *; rewrite Etl; eexists; reflexivity. }
    exists (mark_of k), r. split; [reflexivity|]. destruct k; reflexivity.
Qed.
Lemma html_outer k items c x c' : proper_list k items -> list_html k items c = Some (x, c') -> accepts outer_a x /\ exists a, x = a ++ closing k.
Proof.
  intros (Hn & Ht & _) E. destruct (list_grown k items c x c' Hn (fun t H => proj1 (Ht t H)) E) as (b & m & -> & Hb). split; [apply list_outer; exact Hb|].
  exists (fst (opening k [mark_of k] c) ++ 10 :: tabs 1 ++ u "<li>" ++ b ++ u "</li>" ++ 10 :: tabs m). rewrite <- !app_assoc. cbn [app]. rewrite <- !app_assoc. cbn [app]. reflexivity.
Qed.
Lemma ends_closing a k : exists v, a ++ closing k = v ++ [62].
Proof. destruct k; [exists (a ++ u "</ul")|exists (a ++ u "</ol")]; rewrite <- app_assoc; reflexivity. Qed.
Lemma closing_trim a k : trim_end_matches 10 (a ++ closing k) = a ++ closing k.
Proof. destruct (ends_closing a k) as (v & ->). apply trim_end_by_id. intros r d F. apply app_inj_tail in F as [_ <-]. reflexivity. Qed.
Lemma graf_list fuel n k items c s : (0 < fuel)%nat -> proper_list k items -> good_state c s ->
  match list_html k items c with
  | None => graf_n W T fuel (S n) (list_source k items) s = Panic Overflow
  | Some (x, c') => exists s', graf_n W T fuel (S n) (list_source k items) s = Ret x s' /\ good_state c' s'
  end.
Proof.
  intros Hf Hp Hs. destruct (source_piece k items Hp) as [H PO]. pose proof (fun k0 => lists_stage k items c k0 Hp) as LS. pose proof (fun x c' => html_outer k items c x c' Hp) as HO.
  set (t := list_source k items) in *.
  assert (R : forall r, In r [SPECIAL_NOTEXTILE; SPECIAL_EQ; SPECIAL_CODE; SPECIAL_AT; SPECIAL_PRE; SPECIAL_COMMENT; RESTRICTED_URLREF_RE; UNRESTRICTED_URLREF_RE; QUOTED_QUOTE_RE; SLICE_RE; IMAGE_RE; TEXTILE_TAG_RE; DIVIDER_RE; NOTEDEF_RE] -> no_match (rx_re r) t)
    by (intros r Hr; eapply never_rx; [exact source_inert|exact H|exact Hr]).
  assert (R2 : forall r, In r [TABLE_RE; RC_PATTERN] -> no_match (rx_re r) (t ++ nl ++ nl)).
  { intros r Hr. eapply never_rx; [exact source_tailed| |exact Hr]. apply (tail_ok source_a _ _ H); [intros y Hy; cbn [tailed_of au_trans]; apply in_or_app; auto|].
    intros f F. eapply SufCons with (l := newline) (q' := 200%nat); [|reflexivity|].
    - cbn [tailed_of au_trans]. apply in_or_app. right. apply in_or_app. left. apply in_map_iff. exists f. auto.
    - eapply SufCons with (l := newline) (q' := 201%nat); [|reflexivity|constructor; left; reflexivity]. cbn [tailed_of au_trans]. apply in_or_app. right. apply in_or_app. right. left. reflexivity. }
  assert (P : exists s1, graf_n W T fuel (S n) t s = bind (textile_lists T (t ++ nl ++ nl)) (fun text => bind (span T text) (fun text => bind (footnote_ref T text) (fun text => bind (note_ref T text) (fun text => bind (glyphs T text) (fun text => ret (trim_end_matches 10 text)))))) s1 /\ good_state c s1).
  { cbn [graf_n]. unfold graf_body. rewrite not_lite.
    assert (L1 : leaves T (no_textile T t) t) by (unfold no_textile; eapply leaves_bind; apply leaves_replace, R; cbn [In]; tauto).
    assert (L2 : leaves T (code T t) t) by (unfold code; eapply leaves_bind; [apply leaves_replace, R; cbn [In]; tauto|]; eapply leaves_bind; apply leaves_replace, R; cbn [In]; tauto).
    assert (L3 : leaves T (get_html_comments T t) t) by (apply leaves_replace, R; cbn [In]; tauto).
    assert (L4 : leaves T (get_refs T t) t) by (unfold get_refs; destruct (t_restricted T); apply leaves_replace, R; cbn [In]; tauto).
    assert (L5 : leaves T (glyph_quoted_quote T t) t) by (apply leaves_replace, R; cbn [In]; tauto).
    assert (L6 : leaves T (links W T fuel t) t).
    { apply links_inert; auto; [apply R; cbn [In]; tauto|]. unfold needle. apply contains_more. apply (p_uid _ _ PO). }
    assert (L7 : leaves T (if t_noimage T then ret t else image W T t) t) by (apply leaves_if; intros _; [apply leaves_ret|apply leaves_replace, R; cbn [In]; tauto]).
    assert (L8 : leaves T (table T (graf_n W T fuel n) t) (t ++ nl ++ nl)) by (unfold table; rewrite captures_no_match by (apply R2; cbn [In]; tauto); apply leaves_ret).
    assert (L9 : leaves T (redcloth_list T (graf_n W T fuel n) (t ++ nl ++ nl)) (t ++ nl ++ nl)) by (apply leaves_replace, R2; cbn [In]; tauto).
    repeat match goal with L : leaves T _ _ |- exists s1, bind ?m ?k ?s0 = _ /\ _ =>
      let E := fresh in let s2 := fresh in let G := fresh in
      match type of L with leaves T m ?x => destruct (leaves_step m k x c s0 L ltac:(assumption)) as (s2 & E & G); rewrite E; clear E L; cbv beta end end.
    eexists. split; [reflexivity|assumption]. }
  destruct P as (s1 & E1 & G1). specialize (LS s1 G1). destruct (list_html k items c) as [[x c']|]; [|rewrite E1; unfold bind at 1; rewrite LS; reflexivity].
  destruct LS as (s2 & E2 & G2). destruct (HO x c' eq_refl) as (Hx & a & Ea).
  assert (Rx : forall r, In r ([FOOTNOTE_RE; NOTEREF_RE; BR_TAG_RE; PBR_TAG_RE] ++ TAG_PATTERNS) -> no_match (rx_re r) x) by (intros r Hr; eapply never_rx; [exact outer_inert|exact Hx|exact Hr]).
  assert (Etr : trim_end_matches 10 x = x) by (rewrite Ea; apply closing_trim).
  assert (exists s3, bind (span T x) (fun text => bind (footnote_ref T text) (fun text => bind (note_ref T text) (fun text => bind (glyphs T text) (fun text => ret (trim_end_matches 10 text))))) s2 = Ret x s3 /\ good_state c' s3) as (s3 & E3 & G3).
  { assert (L1 : leaves T (span T x) x) by (apply leaves_pure, span_inert; intros r Hr; apply Rx, in_or_app; auto).
    assert (L2 : leaves T (footnote_ref T x) x) by (apply leaves_replace, Rx, in_or_app; left; cbn [In]; tauto).
    assert (L3 : leaves T (note_ref T x) x) by (apply leaves_replace, Rx, in_or_app; left; cbn [In]; tauto).
    assert (L4 : leaves T (glyphs T x) x) by (apply leaves_pure; apply (glyphs_weave outer_a in_tag outer_tagged T); auto).
    repeat match goal with L : leaves T _ _ |- exists s1, bind ?m ?k ?s0 = _ /\ _ =>
      let E := fresh in let s2 := fresh in let G := fresh in
      match type of L with leaves T m ?x => destruct (leaves_step m k x c' s0 L ltac:(assumption)) as (s2 & E & G); rewrite E; clear E L; cbv beta end end.
    rewrite Etr. eexists. split; [reflexivity|assumption]. }
  exists s3. split; [|exact G3]. rewrite E1. unfold bind at 1. rewrite E2. exact E3.
Qed.
Lemma not_raw a k : has_raw_text (a ++ closing k) = false.
Proof.
  unfold has_raw_text. assert (is_match (rx_re UNWRAPPABLE_RE) (a ++ closing k) = true) as ->; [|reflexivity]. destruct (is_match _ _) eqn:E; auto. apply no_match_of in E. specialize (E a (closing k) eq_refl).
  destruct k; vm_compute in E; discriminate.
Qed.
Lemma list_shown fuel k items c x c' s : (0 < fuel)%nat -> proper_list k items -> good_state c s -> list_html k items c = Some (x, c') ->
  exists s', shown_as W T fuel (list_source k items) x s s' /\ good_state c' s'.
Proof.
  intros Hf Hp Hs E. destruct fuel as [|n]; [lia|]. pose proof (graf_list (S n) n k items c s Hf Hp Hs) as G. rewrite E in G. destruct G as (s' & G1 & G2). destruct (html_outer k items c x c' Hp E) as (Hx & a & Ea).
  assert (Rx : forall r, In r ([FOOTNOTE_RE; NOTEREF_RE; BR_TAG_RE; PBR_TAG_RE] ++ TAG_PATTERNS) -> no_match (rx_re r) x) by (intros r Hr; eapply never_rx; [exact outer_inert|exact Hx|exact Hr]).
  exists s'. split; [|exact G2]. split; [apply (source_piece k items Hp)|]. exists x, s', x. split; [exact G1|]. split.
  - assert (wrapped x = x) as -> by (unfold wrapped; rewrite Ea, not_raw; cbn [negb]; rewrite orb_true_r; reflexivity). unfold do_p_br. apply no_match_replaceM, Rx, in_or_app. left. cbn [In]. tauto.
  - apply replace_all_no_match, Rx, in_or_app. left. cbn [In]. tauto.
Qed.


(** ** Paragraphs of one line *)
Lemma line_family b : family false b one_line = true.
Proof. destruct b; vm_compute; reflexivity. Qed.
Let HA : family (t_lite T) (t_noimage T) one_line = true := eq_ind_r (fun b => family b (t_noimage T) one_line = true) (line_family (t_noimage T)) not_lite.
Lemma line_10 t : accepts one_line t -> ~ In 10 t.
Proof. intros H. apply no_match_ch. eapply never_ok; [exact H|vm_compute; reflexivity]. Qed.
Lemma breaks_none x t : ~ In 10 t -> breaks x t = t.
Proof.
  induction t as [|c t IH]; intros H; [reflexivity|]. unfold breaks. cbn [flat_map]. fold (breaks x t). rewrite IH by (intros F; apply H; right; exact F).
  destruct (N.eqb_spec c 10) as [->|]; [exfalso; apply H; left; reflexivity|reflexivity].
Qed.
Lemma line_shown fuel t c s : (0 < fuel)%nat -> accepts one_line t -> good_state c s ->
  exists s', shown_as W T fuel t (element (u "p") t) s s' /\ good_state c s'.
Proof.
  intros Hf H Hs. destruct fuel as [|n]; [lia|]. pose proof Hs as (C1 & C2 & C3). destruct (graf_quiet W T uid_ok (S n) n t Hf (fam_quiet T one_line uid_simple HA t H) s C1 C2) as (c2 & Hc2 & E).
  exists (set_cache c2 s). split; [|split; [exact Hc2|split; [exact C2|exact C3]]]. split; [apply (fam_piece T one_line uid_simple HA t H)|]. exists t, (set_cache c2 s), (element (u "p") t).
  assert (~ In 60 t) as H60 by (apply no_match_ch, (fam_small T one_line HA); auto; cbn [In small_re]; tauto). pose proof (breaks_none br t (line_10 t H)) as Eb.
  split; [exact E|]. split.
  - assert (wrapped t = element (u "p") t) as ->.
    { unfold wrapped. rewrite (fam_raw T one_line HA t H). destruct t; [destruct (fam_ne T one_line HA [] H eq_refl)|reflexivity]. }
    pose proof (do_p_br_element T (u "p") t) as D. rewrite Eb in D. apply D; [left; reflexivity|exact H60|]. apply (fam_small T one_line HA); auto; cbn [In small_re]; tauto.
  - pose proof (element_br_tag T (u "p") t) as D. rewrite Eb in D. apply D; [left; reflexivity|exact H60].
Qed.
(** ** Documents *)
Lemma part_shown fuel p c x c' s : (0 < fuel)%nat -> proper_part p -> good_state c s -> part_html p c = Some (x, c') ->
  exists s', shown_as W T fuel (part_source p) x s s' /\ good_state c' s'.
Proof.
  intros Hf Hp Hs E. destruct p as [t|k items]; cbn [part_source part_html proper_part] in *; [|apply list_shown with (c := c); auto].
  inversion E; subst. apply line_shown; auto.
Qed.
Lemma part_panics fuel p c s : (0 < fuel)%nat -> proper_part p -> good_state c s -> part_html p c = None -> graf W T fuel (part_source p) s = Panic Overflow.
Proof.
  intros Hf Hp Hs E. destruct p as [t|k items]; cbn [part_source part_html proper_part] in *; [discriminate|]. destruct fuel as [|n]; [lia|].
  pose proof (graf_list (S n) n k items c s Hf Hp Hs) as G. rewrite E in G. exact G.
Qed.
Lemma part_piece p : proper_part p -> piece_of T (part_source p).
Proof. destruct p as [t|k items]; intros H; [apply (fam_piece T one_line uid_simple HA t H)|apply source_piece; exact H]. Qed.
Lemma parts_chain fuel l : (0 < fuel)%nat -> Forall proper_part l -> forall c s, good_state c s ->
  match parts_html l c with
  | Some hs => exists s' c', ProofPieces.chain W T fuel (map part_source l) hs s s' /\ good_state c' s'
  | None => exists a p b hs s', l = a ++ p :: b /\ ProofPieces.chain W T fuel (map part_source a) hs s s' /\ graf W T fuel (part_source p) s' = Panic Overflow
  end.
Proof.
  intros Hf. induction l as [|p l IH]; intros H c s Hs; cbn [parts_html map]; [exists s, c; split; [constructor|exact Hs]|]. inversion H as [|? ? Hp Hl]; subst.
  destruct (part_html p c) as [[x c1]|] eqn:E.
  - destruct (part_shown fuel p c x c1 s Hf Hp Hs E) as (s1 & S1 & G1). specialize (IH Hl c1 s1 G1). destruct (parts_html l c1) as [hs|].
    + destruct IH as (s' & c' & C & G). exists s', c'. split; [econstructor; eauto|exact G].
    + destruct IH as (a & q & b & hs & s' & -> & C & G). exists (p :: a), q, b, (x :: hs), s'. split; [reflexivity|]. split; [cbn [map]; econstructor; eauto|exact G].
  - exists [], p, l, [], s. split; [reflexivity|]. split; [constructor|]. apply part_panics with (c := c); auto.
Qed.
Definition page_a : auto := Eval vm_compute in mk_auto (au_trans outer_a ++ reads 160 230 (u "<p>") 0 ++ flat_map (fun q => reads q 240 (u "</p>") 57) (au_final item_text) ++ [(57, newline, 58); (58, newline, 160)]%nat) 160%nat [57%nat].
Lemma page_inert : forallb (fun r => never page_a (rx_re r)) [TEXT_NOTELIST_RE; BR_PATTERN] = true.
Proof. vm_compute. reflexivity. Qed.
Lemma page_lead : never page_a uid_lead = true.
Proof. vm_compute. reflexivity. Qed.
Lemma outer_page : incl (au_trans outer_a) (au_trans page_a).
Proof. intros x H. change (au_trans page_a) with (au_trans outer_a ++ skipn (List.length (au_trans outer_a)) (au_trans page_a)). apply in_or_app. left. exact H. Qed.
Lemma part_page p c x c' rest : proper_part p -> part_html p c = Some (x, c') -> Suf page_a 57 rest -> Suf page_a 160 (x ++ rest).
Proof.
  intros Hp E Hr. destruct p as [t|k items]; cbn [part_html proper_part] in *.
  - assert (x = u "<p>" ++ t ++ u "</p>") as -> by congruence. rewrite <- !app_assoc. apply (walk_to page_a 160 0); [vm_compute; reflexivity|].
    apply (tail_ok one_line 0 t Hp page_a). { intros y Hy. apply outer_page, inner_outer, item_inner. exact Hy. }
    assert (Wk : forallb (fun f => mem 57 (walk page_a [f] (u "</p>"))) (au_final one_line) = true) by (vm_compute; reflexivity). rewrite forallb_forall in Wk.
    intros f F. eapply walk_to; [apply Wk, F|exact Hr].
  - destruct (html_outer k items c x c' Hp E) as [Hx _]. apply (tail_ok outer_a 160 x Hx page_a outer_page). intros f [<-|[]]. exact Hr.
Qed.
Lemma parts_page l : l <> [] -> Forall proper_part l -> forall c hs, parts_html l c = Some hs -> accepts page_a (sections hs) /\ (forall x, In x hs -> exists v d, x = v ++ [d] /\ d <> 10).
Proof.
  unfold accepts. change (au_start page_a) with 160%nat. induction l as [|p l IH]; intros Hn H c hs E; [congruence|]. inversion H as [|? ? Hp Hl]; subst. cbn [parts_html] in E.
  destruct (part_html p c) as [[x c1]|] eqn:E1; [|discriminate]. destruct (parts_html l c1) as [xs|] eqn:E2; [|discriminate]. inversion E; subst hs. clear E.
  assert (Lx : exists v d, x = v ++ [d] /\ d <> 10).
  { destruct p as [t|k items]; cbn [part_html proper_part] in *.
    - assert (x = u "<p>" ++ t ++ u "</p>") as -> by congruence. exists ((u "<p>" ++ t) ++ u "</p"), 62. split; [rewrite <- !app_assoc; reflexivity|discriminate].
    - destruct (html_outer k items c x c1 Hp E1) as (_ & a & ->). destruct (ends_closing a k) as (v & ->). exists v, 62. split; [reflexivity|discriminate]. }
  destruct l as [|q l].
  - inversion E2; subst. cbn [sections]. split; [|intros y [<-|[]]; exact Lx]. rewrite <- (app_nil_r x). eapply part_page; eauto. constructor. left. reflexivity.
  - destruct (IH ltac:(discriminate) Hl c1 xs E2) as [A B]. split; [|intros y [<-|Hy]; auto].
    assert (xs <> []) as Hx. { intros ->. cbn [parts_html] in E2. destruct (part_html q c1) as [[? ?]|]; [|discriminate]. destruct (parts_html l _); discriminate. }
    rewrite sections_cons by exact Hx. eapply part_page; eauto. apply (walk_to page_a 57 160 [10; 10]); [vm_compute; reflexivity|exact A].
Qed.
Lemma lists_document_from fuel l : s0 = new_state [] -> ready T -> (0 < fuel)%nat -> Forall proper_part l ->
  match parts_html l from_one with
  | Some hs => exists s, parse W T fuel [] (sections (map part_source l)) = Ret (sections hs) s
  | None => parse W T fuel [] (sections (map part_source l)) = Panic Overflow
  end.
Proof.
  intros H0 Hr Hf H. assert (G : good_state from_one (new_state [])) by (repeat split; [apply cache_ok_nil|rewrite H0; reflexivity]). pose proof (parts_chain fuel l Hf H from_one _ G) as C.
  destruct (parts_html l from_one) as [hs|] eqn:E.
  - destruct l as [|p l]; [inversion E; subst; eexists; reflexivity|]. destruct C as (s' & c' & C & (G1 & G2 & _ & G4)). rewrite H0 in G4. destruct (parts_page (p :: l) ltac:(discriminate) H from_one hs E) as [A B].
    assert (R : forall r, In r [TEXT_NOTELIST_RE; BR_PATTERN] -> no_match (rx_re r) (sections hs)) by (intros r Hi; eapply never_rx; [exact page_inert|exact A|exact Hi]).
    eapply parse_shown with (s1 := s'); auto; try discriminate; try exact C; [exact (f_equal ps_notes G4)|exact (f_equal ps_shelf G4)|apply R; cbn [In]; tauto|apply R; cbn [In]; tauto|]. apply lead_absent; auto. eapply never_ok; [exact A|exact page_lead].
  - destruct C as (a & p & b & hs & s' & -> & C & Hg). rewrite map_app. cbn [map]. eapply parse_panic; eauto; [apply Hr|]. intros x Hx. rewrite <- (map_cons part_source p b) in Hx.
    apply in_map_iff in Hx as (q & <- & Hq). apply part_piece. rewrite Forall_forall in H. apply H, in_or_app. right. exact Hq.
Qed.
End Lists.
Definition lists_document W T uid_simple not_lite fuel l := lists_document_from W T uid_simple not_lite (new_state []) fuel l eq_refl.

