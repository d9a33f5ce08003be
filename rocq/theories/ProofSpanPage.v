(** Documents of one paragraph with spans: from the text with tokens to the HTML. *)
From Verif Require Import Str Unicode Regex RegexParse RegexSnips RegexTheory RegexAuto RegexGroups Lib ModelBase ModelHtml ModelUrl
  ModelAttrs ModelInline ModelParser SpecRegex ProofRegex SpecParse ProofParse Logic ProofWalk ProofState SpecState ProofMemory ProofCache ProofLinks ProofDoc
  SpecPlain ProofPlain SpecNewlines ProofNewlines ProofParas ProofTags ProofSections ProofBlocks ProofStateEx SpecDoc ProofDocument SpecText ProofText ProofWeave ProofSpan ProofSpanRe ProofSpanText SpecSpans ProofSpanDoc.
#[local] Arguments u : simpl never.
Lemma piece_small lite A : A = before_spans \/ A = between_spans \/ A = after_spans lite -> forallb (never A) [RCls (ch 60); uid_lead] = true.
Proof. intros [->|[->| ->]]; [| |destruct lite]; vm_compute; reflexivity. Qed.
Lemma breaks_app x a b : breaks x (a ++ b) = breaks x a ++ breaks x b.
Proof. unfold breaks. apply flat_map_app. Qed.
Lemma breaks_one_line x t : ~ In 10 t -> breaks x t = t.
Proof. intros H. unfold breaks. induction t as [|c t IH]; [reflexivity|]. cbn [flat_map]. destruct (N.eqb_spec c 10) as [->|]; [destruct H; left; reflexivity|]. cbn [app]. rewrite IH; [reflexivity|]. intros F. apply H. right. exact F. Qed.
Section Page.
Variables (W : world) (T : textile).
Hypothesis uid_simple : simple_uid (t_uid T).
Hypothesis depth : 1 <= t_max_span_depth T.
Notation lite := (t_lite T).
Notation br := (br_tag T).
Notation uid := (t_uid T).
Fixpoint broken (br : str) (l : list tok) : list tok :=
  match l with
  | [] => []
  | [(k, i, w, t)] => [(k, i, w, breaks br t ++ u "</p>")]
  | (k, i, w, t) :: l' => (k, i, w, breaks br t) :: broken br l'
  end.
Lemma piece_fine A t : A = before_spans \/ A = between_spans \/ A = after_spans lite -> accepts A t -> ~ In 60 t /\ contains uid t = false.
Proof.
  intros HA H. pose proof (piece_small lite A HA) as F. split.
  - apply no_match_ch. eapply never_in; [exact F|exact H|cbn [In]; tauto].
  - apply lead_absent; [exact uid_simple|]. eapply never_in; [exact F|exact H|cbn [In]; tauto].
Qed.
Lemma word_line w : accepts marked w -> ~ In 10 w /\ ~ In 60 w.
Proof. intros H. split; apply no_match_ch; (eapply never_ok; [exact H|vm_compute; reflexivity]). Qed.
Lemma dec_no d i : is_digit_ascii d = false -> ~ In d (dec i).
Proof. intros H F. destruct (dec_spec i) as (_ & H2 & _). rewrite forallb_forall in H2. rewrite (H2 d F) in H. discriminate. Qed.
Lemma uid_10 : ~ In 10 uid. Proof. apply (uid_not T uid_simple). cbn; tauto. Qed.
Lemma token_line i : ~ In 10 (open_token T i) /\ ~ In 10 (close_token T i).
Proof.
  unfold open_token, close_token. pose proof uid_10. pose proof (dec_no 10 i eq_refl). rewrite !in_app_iff. change (u ":ospan ") with [58; 111; 115; 112; 97; 110; 32]. change (u ":cspan") with [58; 99; 115; 112; 97; 110]. change (u " ") with [32].
  cbn [In]. split; intros F; intuition discriminate.
Qed.
Fixpoint toks_ok (l : list tok) : Prop :=
  match l with
  | [] => False
  | [(k, i, w, t)] => (k < 10)%nat /\ accepts marked w /\ accepts (after_spans lite) t
  | (k, i, w, t) :: l' => (k < 10)%nat /\ accepts marked w /\ accepts between_spans t /\ toks_ok l'
  end.
Lemma zip_ok : forall os idx, List.length idx = List.length os -> numbered lite os -> toks_ok (zip idx os).
Proof.
  induction os as [|[[k w] t] os IH]; intros idx Hl H; [destruct H|]. destruct idx as [|i idx]; [discriminate|]. destruct os as [|o os].
  - destruct idx; [|discriminate]. exact H.
  - destruct H as (H1 & H2 & H3 & H4). destruct idx as [|j idx]; [discriminate|]. specialize (IH (j :: idx) ltac:(cbn [List.length] in *; lia) H4). destruct o as [[k2 w2] t2]. cbn [zip toks_ok] in *. auto.
Qed.
Lemma breaks_tok x k i w t : accepts marked w -> breaks x (raw_tok T (k, i, w, t)) = raw_tok T (k, i, w, breaks x t).
Proof.
  intros Hw. cbn [raw_tok]. destruct (token_line i) as [H1 _]. destruct (token_line (i + 1)) as [_ H2]. destruct (word_line w Hw) as [H3 _]. rewrite !breaks_app. rewrite (breaks_one_line x (open_token T i)), (breaks_one_line x w), (breaks_one_line x (close_token T (i + 1))) by assumption. reflexivity.
Qed.
Lemma broken_raw x l : toks_ok l -> breaks x (flat_map (raw_tok T) l) ++ u "</p>" = flat_map (raw_tok T) (broken x l).
Proof.
  induction l as [|[[[k i] w] t] l IH]; intros H; [destruct H|]. destruct l as [|o l].
  - destruct H as (_ & H & _). cbn [flat_map broken]. rewrite !app_nil_r. rewrite breaks_tok by exact H. cbn [raw_tok]. rewrite <- !app_assoc. reflexivity.
  - destruct H as (_ & H & _ & H2). change (broken x ((k, i, w, t) :: o :: l)) with ((k, i, w, breaks x t) :: broken x (o :: l)). cbn [flat_map]. cbn [flat_map] in IH. rewrite breaks_app, breaks_tok by exact H. rewrite <- app_assoc, IH by exact H2. reflexivity.
Qed.
Lemma broken_done x l : toks_ok l -> flat_map done_tok (broken x l) = flat_map (fun o : tok => let '(k, i, w, t) := o in element (tag_of k) w ++ breaks x t) l ++ u "</p>".
Proof.
  induction l as [|[[[k i] w] t] l IH]; intros H; [destruct H|]. assert (E : forall z, done_tok (k, i, w, z) = element (tag_of k) w ++ z) by (intros z; cbn [done_tok]; unfold open_tag, close_tag, element; rewrite <- !app_assoc; reflexivity). destruct l as [|o l].
  - cbn [flat_map broken]. rewrite !app_nil_r, E, <- !app_assoc. reflexivity.
  - destruct H as (_ & _ & _ & H2). change (broken x ((k, i, w, t) :: o :: l)) with ((k, i, w, breaks x t) :: broken x (o :: l)). rewrite !(flat_map_cons _ _ (_ :: _)) || idtac. change (flat_map done_tok ((k, i, w, breaks x t) :: broken x (o :: l))) with (done_tok (k, i, w, breaks x t) ++ flat_map done_tok (broken x (o :: l))).
    rewrite IH by exact H2. rewrite E. cbn [flat_map]. rewrite <- !app_assoc. reflexivity.
Qed.
Lemma ends_break t : closes t -> exists a d, breaks br t = a ++ [d] /\ (d = 32 \/ d = 62).
Proof.
  intros (a & d & -> & [-> | ->]); rewrite breaks_app.
  - exists (breaks br a), 32. split; [reflexivity|auto].
  - assert (exists z, br = z ++ [62]) as (z & E) by (destruct (br_is T) as [E|E]; rewrite E; [exists (u "<br")|exists (u "<br /")]; reflexivity).
    exists (breaks br a ++ z), 62. split; [|auto]. unfold breaks at 2. cbn [flat_map]. change (10 =? 10) with true. cbv iota. rewrite app_nil_r, E, app_assoc. reflexivity.
Qed.
Lemma uid_close t : contains uid t = false -> contains uid (t ++ u "</p>") = false.
Proof.
  intros H. change (t ++ u "</p>") with (t ++ 60 :: [47; 112; 62]). rewrite contains_cut; [rewrite H|apply (not_60 T uid_simple)|apply uid_ne; exact uid_simple].
  change [47; 112; 62] with ([47; 112] ++ 62 :: []). rewrite contains_cut; [|apply (not_62 T uid_simple)|apply uid_ne; exact uid_simple].
  rewrite !contains_len; [reflexivity| |]; destruct (uid_shape T uid_simple) as (id & -> & _); cbn [app List.length]; rewrite ?app_length; cbn [List.length]; lia.
Qed.
Lemma broken_flow s l : toks_ok l -> all_found s l -> ps_ref_index s <= u32_max -> tok_flow T s (broken br l).
Proof.
  intros H F B. induction l as [|[[[k i] w] t] l IH]; [exact I|]. destruct F as [F1 F2]. destruct l as [|o l].
  - destruct H as (H1 & H2 & H3). cbn [broken tok_flow]. split; [exact F1|]. split; [destruct F1 as (_ & _ & F1); lia|]. split; [exact H1|]. split; [apply marked_word; exact H2|]. split; [|split; [intros Q; destruct Q; reflexivity|exact I]].
    apply uid_close. apply uid_breaks; [exact uid_simple|left; apply br_is|]. apply (piece_fine (after_spans lite)); auto.
  - destruct H as (H1 & H2 & H3 & H4). change (broken br ((k, i, w, t) :: o :: l)) with ((k, i, w, breaks br t) :: broken br (o :: l)). cbn [tok_flow]. split; [exact F1|]. split; [destruct F1 as (_ & _ & F1); lia|]. split; [exact H1|]. split; [apply marked_word; exact H2|].
    split; [apply uid_breaks; [exact uid_simple|left; apply br_is|]; apply (piece_fine between_spans); auto|]. split; [|apply IH; assumption]. intros _. apply ends_break, closes_between, H3.
Qed.
Lemma broken_ne x l : l <> [] -> broken x l <> [].
Proof. destruct l as [|[[[k i] w] t] [|o l]]; [congruence|discriminate|discriminate]. Qed.
Definition shown_tok (x : str) (o : tok) : str := let '(k, i, w, t) := o in element (tag_of k) w ++ breaks x t.
Lemma uid_little t : (List.length t < 11)%nat -> contains uid t = false.
Proof. intros H. apply contains_len. destruct (uid_shape T uid_simple) as (id & -> & _). rewrite !app_length. cbn [List.length]. lia. Qed.
Lemma tag_little k : (k < 10)%nat -> (List.length (tag_of k) < 10)%nat.
Proof. intros H. unfold tag_of. do 10 (destruct k as [|k]; [vm_compute; lia|]). lia. Qed.
Lemma uid_shown l : toks_ok l -> forall x, contains uid x = false -> contains uid (x ++ flat_map (shown_tok br) l ++ u "</p>") = false.
Proof.
  induction l as [|[[[k i] w] t] l IH]; intros H x Hx; [destruct H|].
  assert (Hk : (k < 10)%nat /\ accepts marked w /\ contains uid t = false /\ (l = [] \/ toks_ok l)).
  { destruct l as [|o l]; [destruct H as (H1 & H2 & H3)|destruct H as (H1 & H2 & H3 & H4)]; (split; [exact H1|]; split; [exact H2|]; split; [|auto]); [apply (piece_fine (after_spans lite)) in H3|apply (piece_fine between_spans) in H3]; auto; apply H3. }
  destruct Hk as (Hk & Hw & Ht & Hl). cbn [flat_map shown_tok]. unfold element. change (u "<") with [60]. change (u "</") with [60; 47]. change (u ">") with [62]. rewrite <- !app_assoc. cbn [app].
  pose proof (not_60 T uid_simple) as N1. pose proof (not_62 T uid_simple) as N2. pose proof (uid_ne _ uid_simple) as N3. pose proof (tag_little k Hk) as N4.
  rewrite (contains_cut uid 60), Hx, (contains_cut uid 62), (uid_little (tag_of k)), (contains_cut uid 60) by (auto; lia). change (47 :: tag_of k ++ ?z) with ((47 :: tag_of k) ++ z). rewrite (contains_cut uid 62), (uid_little (47 :: tag_of k)) by (auto; cbn [List.length]; lia).
  assert (contains uid w = false) as -> by (pose proof (word_no_uid T uid_simple [] w) as Q; cbn [app] in Q; apply Q; [intros []|apply marked_word; exact Hw]). cbn [orb].
  assert (contains uid (breaks br t) = false) as Hb by (apply uid_breaks; [exact uid_simple|left; apply br_is|exact Ht]). destruct Hl as [->|Hl]; [|apply IH; auto]. cbn [flat_map app]. apply uid_close. exact Hb.
Qed.
Lemma tag_head k : (k < 10)%nat -> ~ In 60 (tag_of k) /\ forall z, not_br (tag_of k ++ 62 :: z).
Proof.
  intros H. unfold tag_of, tags. change (u "b") with [98]. change (u "strong") with [115; 116; 114; 111; 110; 103]. change (u "cite") with [99; 105; 116; 101]. change (u "del") with [100; 101; 108]. change (u "i") with [105]. change (u "em") with [101; 109].
  change (u "span") with [115; 112; 97; 110]. change (u "ins") with [105; 110; 115]. change (u "sub") with [115; 117; 98]. change (u "sup") with [115; 117; 112].
  do 10 (destruct k as [|k]; [cbn [nth In app not_br]; split; [|intros z]; intuition discriminate|]). lia.
Qed.
Lemma brs_plain fb p a b : ~ In 60 p -> brs br fb a b -> brs br fb (p ++ a) (p ++ b).
Proof. induction p as [|c p IH]; intros Hp Hab; [exact Hab|]. cbn [app]. apply brs_char; [intros ->; apply Hp; left; auto|]. apply IH; auto. intros F. apply Hp. right. auto. Qed.
Lemma shown_brs fb l : toks_ok l -> exists r r', flat_map (shown_tok br) l ++ u "</p>" = 60 :: r /\ flat_map (shown_tok fb) l ++ u "</p>" = 60 :: r' /\ brs br fb (60 :: r) (60 :: r').
Proof.
  assert (E0 : exists r r', u "</p>" = 60 :: r /\ u "</p>" = 60 :: r' /\ brs br fb (60 :: r) (60 :: r')).
  { exists [47; 112; 62], [47; 112; 62]. split; [reflexivity|]. split; [reflexivity|]. apply brs_other; [cbn [not_br]; intuition discriminate|]. repeat (apply brs_char; [discriminate|]). apply brs_nil. }
  induction l as [|[[[k i] w] t] l IH]; intros H; [destruct H|].
  assert (Hk : (k < 10)%nat /\ accepts marked w /\ ~ In 60 t /\ (l = [] \/ toks_ok l)).
  { destruct l as [|o l]; [destruct H as (H1 & H2 & H3)|destruct H as (H1 & H2 & H3 & H4)]; (split; [exact H1|]; split; [exact H2|]; split; [|auto]); [apply (piece_fine (after_spans lite)) in H3|apply (piece_fine between_spans) in H3]; auto; apply H3. }
  destruct Hk as (Hk & Hw & Ht & Hl). assert (exists r r', flat_map (shown_tok br) l ++ u "</p>" = 60 :: r /\ flat_map (shown_tok fb) l ++ u "</p>" = 60 :: r' /\ brs br fb (60 :: r) (60 :: r')) as (r & r' & E1 & E2 & HB) by (destruct Hl as [->|Hl]; [exact E0|exact (IH Hl)]).
  cbn [flat_map shown_tok]. unfold element. change (u "<") with [60]. change (u "</") with [60; 47] in *. change (u ">") with [62]. rewrite <- !app_assoc. rewrite E1, E2. cbn [app]. eexists. eexists. split; [reflexivity|]. split; [reflexivity|].
  destruct (tag_head k Hk) as [H60 Hnb]. destruct (word_line w Hw) as [_ W60]. apply brs_other; [apply Hnb|]. apply brs_plain; [exact H60|]. apply brs_char; [discriminate|]. apply brs_plain; [exact W60|].
  apply brs_other; [cbn [not_br app]; destruct (tag_of k); cbn [app]; intuition discriminate|]. apply brs_char; [discriminate|]. apply brs_plain; [exact H60|]. apply brs_char; [discriminate|]. apply breaks_brs; [exact Ht|discriminate|apply br_is|exact HB].
Qed.
Lemma shown_spans x a : forall os idx, List.length idx = List.length os -> u "<p>" ++ breaks x a ++ flat_map (shown_tok x) (zip idx os) ++ u "</p>" = spans_html x a (map marking_of os).
Proof.
  intros os idx Hl. unfold spans_html, element. assert (flat_map (shown_tok x) (zip idx os) = flat_map (fun k => element (k_tag k) (k_text k) ++ breaks x (k_after k)) (map marking_of os)) as ->.
  { revert idx Hl. induction os as [|[[k w] t] os IH]; intros [|i idx] Hl; try discriminate; [reflexivity|]. cbn [zip flat_map map marking_of k_tag k_text k_after shown_tok]. rewrite IH by (cbn [List.length] in Hl; injection Hl as ->; reflexivity). reflexivity. }
  rewrite <- !app_assoc. reflexivity.
Qed.
Lemma span_parse fuel a os : t_block_tags T = true -> t_sanitize T = None -> (0 < fuel)%nat -> accepts before_spans a -> numbered lite os -> 2 * N.of_nat (List.length os) <= u32_max ->
  exists s, parse W T fuel [] (spans_text a (map marking_of os)) = Ret (spans_html (line_break T) a (map marking_of os)) s.
Proof.
  intros Ht Hs Hf Ha Ho Hb. rewrite (spans_text_render T). fold (src T a os). destruct fuel as [|n]; [lia|].
  destruct (inline_spans W T uid_simple depth a os Ha Ho (S n) n Hf) as (idx & s1 & E & Hl & Hfound & EI & EN & ES & EB & HC). fold (graf W T (S n)) in E. set (g := toks_text T a os idx) in *.
  pose proof (src_accepts T a os Ha Ho) as AS. pose proof (toks_accepts T uid_simple a os Ha Ho idx Hl) as AG. fold g in AG.
  assert (N2 : forall r, In r token_small -> no_match r g) by (intros r Hr; eapply never_in; [apply tokened_small|exact AG|exact Hr]).
  assert (N3 : forall r, In r [DIVIDER_RE; UNWRAPPABLE_RE; WRAPPED_RE; PBR_BR_RE] -> no_match (rx_re r) g) by (intros r Hr; eapply never_rx; [apply tokened_glyph|exact AG|apply in_or_app; right; exact Hr]).
  assert (~ In 60 g) as H60 by (apply no_match_ch, N2; cbn [In token_small]; tauto).
  assert (g <> []) as Hg.
  { unfold g, toks_text. destruct os as [|[[k w] t] os']; [destruct Ho|]. destruct idx as [|i idx']; [discriminate|]. cbn [zip flat_map raw_tok]. unfold open_token. pose proof (uid_ne _ uid_simple) as Q. destruct uid as [|x q]; [congruence|]. destruct a; discriminate. }
  assert (wrapped g = element (u "p") g) as Ew.
  { unfold wrapped, has_raw_text. rewrite !is_match_no_match by (apply N3; cbn [In]; tauto). rewrite captures_no_match by (apply N3; cbn [In]; tauto). destruct g; [congruence|reflexivity]. }
  assert (do_p_br T (wrapped g) s1 = Ret (element (u "p") (breaks br g)) s1) as Eo.
  { rewrite Ew. apply do_p_br_element; [left; reflexivity|exact H60|]. apply N2. cbn [In token_small]; tauto. }
  assert (replace_all (rx_re BR_TAG_RE) (fun _ => br) (element (u "p") (breaks br g)) = element (u "p") (breaks br g)) as Eb by (apply element_br_tag; auto; left; reflexivity).
  assert (piece_of T (src T a os)) as HP.
  { assert (forall r, In r small_re -> no_match r (src T a os)) as S1 by (intros r Hr; eapply never_in; [apply spanned_small|exact AS|exact Hr]).
    assert (forall r, In r (para_rx lite) -> no_match (rx_re r) (src T a os)) as S2 by (intros r Hr; eapply never_rx; [apply spanned_para|exact AS|exact Hr]).
    constructor.
    - apply firm_of; apply S1; cbn [In small_re]; tauto.
    - intros _. apply esc_id; apply no_match_ch, S1; cbn [In small_re]; tauto.
    - apply lead_absent; [exact uid_simple|]. apply S1; cbn [In small_re]; tauto.
    - apply (S2 (if lite then TEXTILE_LIGHT_TAG_RE else TEXTILE_TAG_RE)). left. reflexivity.
    - apply S2. cbn [In para_rx]; tauto.
    - apply S2. cbn [In para_rx]; tauto.
    - assert (src T a os <> []) as Hn.
      { unfold src. destruct os as [|[[k w] t] os']; [destruct Ho|]. unfold render. cbn [marked_text map flat_map fst snd item_text]. destruct (marks_two k) as (c & [Q|Q]); rewrite Q; destruct a; discriminate. }
      destruct (src T a os) as [|c r]; [congruence|]. exists c, r. split; [reflexivity|]. pose proof (no_start_cls space_cls c r) as Q. rewrite <- Q; [|apply S1; cbn [In small_re]; tauto].
      unfold in_cls, space_cls. cbn [c_neg c_items existsb in_item has_prop]. destruct (is_ws c); reflexivity. }
  assert (NL : forall q k q', In (q, k, q') (au_trans (tokened lite)) -> in_cls k 10 = true -> q' = 1%nat).
  { intros q k q' Hi Hk. assert (forallb (fun tr => implb (in_cls (snd (fst tr)) 10) (Nat.eqb (snd tr) 1)) (au_trans (tokened lite)) = true) as Q by (destruct lite; vm_compute; reflexivity). rewrite forallb_forall in Q. specialize (Q _ Hi). cbn [fst snd] in Q. rewrite Hk in Q. apply Nat.eqb_eq in Q. exact Q. }
  pose proof (shown_page T (tokened lite) NL g AG) as AP.
  rewrite (parse_one W T uid_simple (S n) [] _ g s1 (element (u "p") (breaks br g)) Ht HP E EN ES Eo).
  2:{ rewrite Eb. exact (never_ok _ _ _ AP (proj1 (tokened_list lite))). }
  rewrite Eb. rewrite replace_absent.
  2:{ pose proof (uid_ne _ uid_simple) as Q. destruct uid; [congruence|discriminate]. }
  2:{ destruct (contains _ _) eqn:Q; [|reflexivity]. exfalso. destruct (uid_shape T uid_simple) as (id & Eu & _). rewrite Eu in Q.
      assert (no_match (lit_re (u "::") (RCls (one_of [103]))) (element (u "p") (breaks br g))) as F by exact (never_ok _ _ _ AP (proj2 (tokened_list lite))).
      apply (no_contains (u "::") _ 103 (u "lyph:")) in F; [|reflexivity]. apply contains_split in Q as (x & y & Q). rewrite Q in F.
      assert (x ++ (([116; 101; 120; 116; 105; 108; 101; 82; 101; 102; 58] ++ id ++ [58]) ++ u ":glyph:") ++ y = (x ++ [116; 101; 120; 116; 105; 108; 101; 82; 101; 102; 58] ++ id) ++ (u "::" ++ 103 :: u "lyph:") ++ y) as G by (change (u "::" ++ 103 :: u "lyph:") with ([58] ++ u ":glyph:"); rewrite <- !app_assoc; reflexivity).
      rewrite G, contains_mid in F. discriminate. }
  assert (element (u "p") (breaks br g) = (u "<p>" ++ breaks br a) ++ flat_map (raw_tok T) (broken br (zip idx os))) as Ep.
  { pose proof (zip_ok os idx Hl Ho) as Z. rewrite <- broken_raw by exact Z. unfold g, toks_text. rewrite breaks_app. unfold element. rewrite <- !app_assoc. reflexivity. }
  assert (Z : toks_ok (zip idx os)) by (apply zip_ok; assumption). assert (zip idx os <> []) as Zn by (intros Q; rewrite Q in Z; exact Z).
  destruct (retrieve_text T uid_simple s1 (u "<p>" ++ breaks br a) (broken br (zip idx os)) HC EB) as (c1 & HC1 & E1).
  { change (u "<p>" ++ breaks br a) with ([] ++ 60 :: [112] ++ 62 :: breaks br a). rewrite !contains_cut by (try apply (not_60 T uid_simple); try apply (not_62 T uid_simple); apply uid_ne; exact uid_simple). rewrite !uid_little by (cbn [List.length]; lia). cbn [orb].
    apply uid_breaks; [exact uid_simple|left; apply br_is|]. apply (piece_fine before_spans); auto. }
  { destruct (closes_before a Ha) as [->|Hc]; [exists (u "<p"), 62; split; [reflexivity|auto]|]. destruct (ends_break a Hc) as (x & d & -> & Hd). exists (u "<p>" ++ x), d. split; [rewrite app_assoc; reflexivity|exact Hd]. }
  { apply broken_flow; auto. rewrite EI. exact Hb. } { apply broken_ne. exact Zn. }
  unfold bind at 1. rewrite Ep, E1. rewrite broken_done by exact Z. change (fun o : tok => let '(k, i, w, t) := o in element (tag_of k) w ++ breaks br t) with (shown_tok br). rewrite <- app_assoc.
  assert (contains uid (u "<p>" ++ breaks br a ++ flat_map (shown_tok br) (zip idx os) ++ u "</p>") = false) as Eu.
  { rewrite app_assoc. apply uid_shown; [exact Z|]. change (u "<p>" ++ breaks br a) with ([] ++ 60 :: [112] ++ 62 :: breaks br a). rewrite !contains_cut by (try apply (not_60 T uid_simple); try apply (not_62 T uid_simple); apply uid_ne; exact uid_simple). rewrite !uid_little by (cbn [List.length]; lia). cbn [orb].
    apply uid_breaks; [exact uid_simple|left; apply br_is|]. apply (piece_fine before_spans); auto. }
  destruct (urls_absent W T uid_simple _ Eu (set_cache c1 s1) HC1 EB) as (c3 & HC3 & E8).
  exists (set_cache c3 (set_cache c1 s1)). unfold bind at 1. rewrite E8. unfold ret. f_equal. unfold finish. rewrite Hs. unfold replace_all, segs.
  rewrite <- (shown_spans _ _ _ _ Hl), <- final_break.
  assert (brs br (final_br T) (u "<p>" ++ breaks br a ++ flat_map (shown_tok br) (zip idx os) ++ u "</p>") (u "<p>" ++ breaks (final_br T) a ++ flat_map (shown_tok (final_br T)) (zip idx os) ++ u "</p>")) as HB.
  { destruct (shown_brs (final_br T) _ Z) as (r & r' & -> & -> & HB). change (u "<p>") with [60; 112; 62]. cbn [app]. apply brs_other; [cbn [not_br]; intuition discriminate|]. apply brs_char; [discriminate|]. apply brs_char; [discriminate|].
    apply breaks_brs; [apply (piece_fine before_spans); auto|discriminate|apply br_is|exact HB]. }
  erewrite brs_pattern; [|apply br_is|exact HB]. apply trim_end_by_id. intros r d F. change (u "</p>") with ([60; 47; 112] ++ [62]) in F. rewrite !app_assoc in F. apply app_inj_tail in F. destruct F as [_ <-]. reflexivity.
Qed.
End Page.
Lemma spans_parse W T fuel a l : ready T -> 1 <= t_max_span_depth T -> (0 < fuel)%nat -> with_spans (t_lite T) a l -> 2 * N.of_nat (List.length l) <= u32_max ->
  exists s, parse W T fuel [] (spans_text a l) = Ret (spans_html (line_break T) a l) s.
Proof.
  intros (H1 & H2 & H3) Hd Hf [Ha Hl] Hb. destruct (numbered_of _ _ Hl) as (os & -> & Ho). rewrite map_length in Hb. apply span_parse; auto.
Qed.
