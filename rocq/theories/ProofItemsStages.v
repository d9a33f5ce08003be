(** Attribute specifications, stage by stage. *)
From Verif Require Import Str Unicode Regex RegexParse RegexSnips RegexTheory RegexGroups Lib ModelBase ModelHtml ModelAttrs
  SpecRegex ProofRegex ProofCharref ProofParse ProofParas ProofSpanRe ProofTags ProofLinks ProofSections SpecAtts ProofItems.
#[local] Arguments u : simpl never.

(** ** Characters of items *)
Lemma in_join (c : N) ds : In c (join (u ";") ds) -> c = 59 \/ exists d, In d ds /\ In c d.
Proof.
  induction ds as [|d ds IH]; [intros []|]. destruct ds as [|e ds].
  - cbn [join]. intros H. right. exists d. split; [left; reflexivity|exact H].
  - rewrite join_two. intros H. apply in_app_or in H as [H|H]; [right; exists d; split; [left; reflexivity|exact H]|]. apply in_app_or in H as [H|H]; [left; change (u ";") with [59] in H; destruct H as [H|[]]; congruence|].
    destruct (IH H) as [F|(d' & F1 & F2)]; [left; exact F|right; exists d'; split; [right; exact F1|exact F2]].
Qed.
Definition chars_of (x : item) (c : N) : Prop :=
  match x with
  | Style ds k => c = 123 \/ c = 125 \/ c = 59 \/ exists d, In d ds /\ In c d
  | Lang l => c = 91 \/ c = 93 \/ In c l
  | ClassId l i => c = 40 \/ c = 41 \/ c = 35 \/ In c l \/ exists s, i = Some s /\ In c s
  | PadLeft _ => c = 40
  | PadRight _ => c = 41
  | HAlign _ => c = 60 \/ c = 61 \/ c = 62
  | VAlign _ => c = 94 \/ c = 45 \/ c = 126
  | ColSpan _ => c = 92 \/ is_digit_ascii c = true
  | RowSpan _ => c = 47 \/ is_digit_ascii c = true
  | Heading => c = 95
  | Stop => c = 46 \/ c = 32
  end.
Lemma in_dec c n : In c (dec n) -> is_digit_ascii c = true.
Proof. destruct (dec_spec n) as (_ & H & _). rewrite forallb_forall in H. apply H. Qed.
Lemma item_chars x c : In c (item_text x) -> chars_of x c.
Proof.
  destruct x as [ds k|l|l i|n|n|a|v|n|n| | ]; cbn [item_text chars_of]; intros H.
  - apply in_app_or in H as [[H|[]]|H]; [auto|]. apply in_app_or in H as [H|H]; [apply in_join in H; tauto|]. apply in_app_or in H as [H|[H|[]]]; [apply repeat_spec in H|]; auto.
  - apply in_app_or in H as [[H|[]]|H]; [auto|]. apply in_app_or in H as [H|[H|[]]]; auto.
  - apply in_app_or in H as [[H|[]]|H]; [auto|]. apply in_app_or in H as [H|H]; [tauto|]. apply in_app_or in H as [H|[H|[]]]; [|auto]. destruct i as [s|]; [|destruct H]. destruct H as [H|H]; [auto|]. do 4 right. exists s. auto.
  - apply repeat_spec in H. exact H.
  - apply repeat_spec in H. exact H.
  - destruct a; cbn [halign_mark] in H; repeat (destruct H as [H|H]; [subst; tauto|]); destruct H.
  - destruct v; cbn [valign_mark] in H; repeat (destruct H as [H|H]; [subst; tauto|]); destruct H.
  - destruct H as [H|H]; [auto|right; apply (in_dec _ _ H)].
  - destruct H as [H|H]; [auto|right; apply (in_dec _ _ H)].
  - destruct H as [H|[]]. auto.
  - destruct H as [H|[H|[]]]; auto.
Qed.
Definition foreign : str := [123; 125; 91; 93; 40; 41; 60; 61; 62; 92; 35].
Lemma class_foreign c : In c foreign -> ~ In c class_chars.
Proof.
  intros H F. assert (forallb (fun d => forallb (fun e => negb (d =? e)) class_chars) foreign = true) as E by (vm_compute; reflexivity).
  rewrite forallb_forall in E. specialize (E c H). rewrite forallb_forall in E. specialize (E c F). rewrite N.eqb_refl in E. discriminate.
Qed.
Lemma id_foreign c : In c (47 :: foreign) -> ~ In c id_part_chars.
Proof.
  intros H F. assert (forallb (fun d => forallb (fun e => negb (d =? e)) id_part_chars) (47 :: foreign) = true) as E by (vm_compute; reflexivity).
  rewrite forallb_forall in E. specialize (E c H). rewrite forallb_forall in E. specialize (E c F). rewrite N.eqb_refl in E. discriminate.
Qed.
Lemma class_id_free c l i : In c foreign -> c <> 40 -> c <> 41 -> c <> 35 -> (forall x, In x l -> In x class_chars) -> (forall s, i = Some s -> forall x, In x s -> In x id_part_chars) ->
  ~ chars_of (ClassId l i) c.
Proof.
  intros Hc N1 N2 N3 Hl Hi [H|[H|[H|[H|(s & H1 & H2)]]]]; try contradiction.
  - apply (class_foreign c Hc), Hl, H.
  - apply (id_foreign c); [right; exact Hc|]. apply (Hi s H1), H2.
Qed.
Ltac plain_char := intros H; cbn [chars_of] in H; repeat match type of H with _ \/ _ => destruct H as [H|H] end; (discriminate H || (vm_compute in H; discriminate H)).
Ltac in_fixed := repeat (first [left; reflexivity|right]).
Lemma without_in cs t c : without cs t -> In c cs -> ~ In c t. Proof. intros H. apply H. Qed.
Section ITEMS.
Variables (el : element) (restricted : bool).
Let ok := item_ok el restricted.
(** No other item has the opening brace. *)
Lemma brace_free x : ok x -> kind x <> 0%nat -> ~ In 123 (item_text x).
Proof.
  intros Ho Hk F. apply item_chars in F. revert F. destruct x as [ds k|l|l i|n|n|a|v|n|n| | ]; try plain_char.
  - cbn in Hk. congruence.
  - intros [F|[F|F]]; try discriminate. destruct Ho as (_ & Ho & _). revert F. apply Ho. in_fixed.
  - destruct Ho as (_ & H1 & H2 & _). apply class_id_free; auto; try discriminate. in_fixed.
Qed.
Lemma bracket_free x : ok x -> kind x <> 1%nat -> (kind x <> 0%nat \/ restricted = true) -> ~ In 91 (item_text x).
Proof.
  intros Ho Hk Hr F. apply item_chars in F. revert F. destruct x as [ds k|l|l i|n|n|a|v|n|n| | ]; try plain_char.
  - intros [F|[F|[F|(d & F1 & F2)]]]; try discriminate. destruct Hr as [Hr|Hr]; [cbn in Hr; congruence|]. destruct Ho as (_ & _ & Ho). destruct (Ho d F1) as (_ & _ & H). revert F2. apply (H Hr). in_fixed.
  - cbn in Hk. congruence.
  - destruct Ho as (_ & H1 & H2 & _). apply class_id_free; auto; try discriminate. in_fixed.
Qed.
Definition late (x : item) : Prop := kept restricted x = true.
Lemma paren_free c x : ok x -> late x -> kind x <> 2%nat -> (c = 40 /\ kind x <> 3%nat) \/ (c = 41 /\ kind x <> 4%nat) -> ~ In c (item_text x).
Proof.
  intros Ho Hl Hk Hc F. apply item_chars in F. assert (c = 40 \/ c = 41) as Hc' by tauto. revert F. destruct x as [ds k|l|l i|n|n|a|v|n|n| | ].
  - intros [F|[F|[F|(d & F1 & F2)]]]; try (destruct Hc'; congruence). destruct Ho as (_ & _ & Ho). destruct (Ho d F1) as (_ & _ & H). unfold late in Hl. cbn [kept] in Hl. revert F2. apply (H Hl). destruct Hc' as [-> | ->]; in_fixed.
  - discriminate Hl.
  - cbn in Hk. congruence.
  - cbn [chars_of kind] in *. intros ->. destruct Hc as [[_ Hc]|[Hc _]]; [congruence|discriminate].
  - cbn [chars_of kind] in *. intros ->. destruct Hc as [[Hc _]|[_ Hc]]; [discriminate|congruence].
  - destruct Hc' as [-> | ->]; plain_char.
  - destruct Hc' as [-> | ->]; plain_char.
  - destruct Hc' as [-> | ->]; plain_char.
  - destruct Hc' as [-> | ->]; plain_char.
  - destruct Hc' as [-> | ->]; plain_char.
  - destruct Hc' as [-> | ->]; plain_char.
Qed.
Lemma rest_free x : ok x -> late x -> In (kind x) [0; 6; 7; 8; 9; 10]%nat -> without (u "<>=()") (item_text x).
Proof.
  intros Ho Hl Hk c Hc F. apply item_chars in F. assert (c = 60 \/ c = 62 \/ c = 61 \/ c = 40 \/ c = 41) as Hc' by (repeat (destruct Hc as [Hc|Hc]; [subst; tauto|]); destruct Hc). revert F. destruct x as [ds k|l|l i|n|n|a|v|n|n| | ];
    try solve [exfalso; cbn [kind In] in Hk; repeat (destruct Hk as [Hk|Hk]; [discriminate|]); destruct Hk].
  - intros [F|[F|[F|(d & F1 & F2)]]]; try (repeat (destruct Hc' as [Hc'|Hc']; [congruence|]); congruence). destruct Ho as (_ & _ & Ho). destruct (Ho d F1) as (_ & _ & H). revert F2. apply (H Hl). repeat (destruct Hc' as [->|Hc']; [in_fixed|]); subst; in_fixed.
  - repeat (destruct Hc' as [->|Hc']; [plain_char|]); subst; plain_char.
  - repeat (destruct Hc' as [->|Hc']; [plain_char|]); subst; plain_char.
  - repeat (destruct Hc' as [->|Hc']; [plain_char|]); subst; plain_char.
  - repeat (destruct Hc' as [->|Hc']; [plain_char|]); subst; plain_char.
  - repeat (destruct Hc' as [->|Hc']; [plain_char|]); subst; plain_char.
Qed.
Lemma slash_free c x : el = ElTd -> ok x -> (c = 92 /\ kind x <> 7%nat) \/ (c = 47 /\ kind x <> 8%nat) -> ~ In c (item_text x).
Proof.
  intros He Ho Hc F. apply item_chars in F. assert (c = 92 \/ c = 47) as Hc' by tauto. revert F. destruct x as [ds k|l|l i|n|n|a|v|n|n| | ];
    try (destruct Hc' as [-> | ->]; plain_char).
  - intros [F|[F|[F|(d & F1 & F2)]]]; try (destruct Hc'; congruence). destruct Ho as (_ & _ & Ho). destruct (Ho d F1) as (_ & H & _). revert F2. apply (H He). destruct Hc' as [-> | ->]; in_fixed.
  - intros [F|[F|F]]; try (destruct Hc'; congruence). destruct Ho as (_ & _ & Ho). revert F. apply (Ho He). destruct Hc' as [-> | ->]; in_fixed.
  - destruct Ho as (_ & H1 & H2 & H3). destruct Hc' as [-> | ->]; [apply class_id_free; auto; try discriminate; in_fixed|].
    intros [F|[F|[F|[F|(s & F1 & F2)]]]]; try discriminate; [exact (H3 He F)|]. apply (id_foreign 47); [left; reflexivity|]. apply (H2 s F1 _ F2).
  - destruct Hc as [[-> Hk]|[-> _]]; [cbn in Hk; congruence|plain_char].
  - destruct Hc as [[-> _]|[-> Hk]]; [plain_char|cbn in Hk; congruence].
Qed.

(** ** Declarations *)
Lemma trim_tail s d c k : d <> c -> trim_end_matches c ((s ++ [d]) ++ repeat c k) = s ++ [d].
Proof.
  intros Hd. unfold trim_end_matches, trim_end_by. rewrite rev_app_distr. assert (rev (repeat c k) = repeat c k) as ->.
  { induction k as [|k IH]; [reflexivity|]. cbn [repeat rev]. rewrite IH. clear. induction k as [|k IH]; [reflexivity|]. cbn [repeat app]. rewrite IH. reflexivity. }
  assert (trim_start_by (N.eqb c) (repeat c k ++ rev (s ++ [d])) = rev (s ++ [d])) as ->; [|apply rev_involutive].
  induction k as [|k IH]; [|cbn [repeat app trim_start_by]; rewrite N.eqb_refl; exact IH]. cbn [repeat app]. rewrite rev_app_distr. cbn [rev app trim_start_by]. destruct (N.eqb_spec c d); [congruence|reflexivity].
Qed.
Lemma join_last l d : exists s, join (u ";") (l ++ [d]) = s ++ d.
Proof. destruct l as [|x l]; [exists []; reflexivity|]. exists (join (u ";") (x :: l) ++ u ";"). rewrite join_app by discriminate. rewrite <- app_assoc. reflexivity. Qed.
Lemma split_joined ds : ds <> [] -> (forall d, In d ds -> ~ In 59 d) -> split_char 59 (join (u ";") ds) = ds.
Proof.
  induction ds as [|d ds IH]; intros Hn H; [congruence|]. destruct ds as [|e ds].
  - cbn [join]. apply split_none. apply H. left. reflexivity.
  - rewrite join_two. change (u ";") with [59]. rewrite (split_once 59 _ d) by (apply H; left; reflexivity). f_equal. apply IH; [discriminate|]. intros x Hx. apply H. right. exact Hx.
Qed.
Lemma style_words ds k : ok (Style ds k) -> map trim (split_char 59 (trim_end_matches 59 (join (u ";") ds ++ repeat 59 k))) = map trim ds /\ join (u ";") ds ++ repeat 59 k <> [] /\ ~ In 125 (join (u ";") ds ++ repeat 59 k).
Proof.
  intros (Hn & (l & d & E & Hd) & Ho). assert (forall x, In x ds -> ~ In 59 x /\ ~ In 125 x) as Hx by (intros x Hx; destruct (Ho x Hx) as (H & _); split; apply H; in_fixed).
  destruct (join_last l d) as (s & Es). rewrite <- E in Es. destruct (exists_last Hd) as (d' & c & Ec). assert (c <> 59) as Hc by (intros ->; destruct (Hx d) as [F _]; [rewrite E; apply in_or_app; right; left; reflexivity|]; apply F; rewrite Ec; apply in_or_app; right; left; reflexivity).
  split; [|split].
  - f_equal. rewrite Es, Ec, app_assoc, trim_tail by exact Hc. rewrite <- app_assoc, <- Ec, <- Es. apply split_joined; [exact Hn|]. intros x F. apply (Hx x F).
  - rewrite Es, Ec. destruct s; [destruct d'|]; discriminate.
  - intros F. apply in_app_or in F as [F|F]; [|apply repeat_spec in F; discriminate]. apply in_join in F as [F|(x & F1 & F2)]; [discriminate|]. destruct (Hx x F1) as [_ G]. exact (G F2).
Qed.
Variable l : list item.
Hypothesis (Hd : NoDup (map kind l)) (Hok : forall x, In x l -> ok x).
Definition f_style (x : item) : option (list str) := match x with Style ds _ => Some (map trim ds) | _ => None end.
Lemma style_text ds k : item_text (Style ds k) = 123 :: (join (u ";") ds ++ repeat 59 k) ++ [125].
Proof. cbn [item_text]. rewrite <- app_assoc. reflexivity. Qed.
Lemma style_stage : match captures (rx_re ATTR_STYLE_RE) (items_text l) with
         | Some h => (map trim (split_char 59 (trim_end_matches 59 (cap_or 1 h))), erase (items_text l) h)
         | None => ([], items_text l)
         end = (or_nil (pick f_style l), items_text (rem 0 l)).
Proof.
  assert (forall x, kind x <> 0%nat -> f_style x = None) as Hf by (intros [] F; try reflexivity; cbn in F; congruence).
  assert (forall l1 x l2, l = l1 ++ x :: l2 -> kind x = 0%nat -> ~ In 123 (items_text l1) ->
     exists h, captures (rx_re ATTR_STYLE_RE) (items_text l) = Some h /\ h_text h = item_text x /\ map trim (split_char 59 (trim_end_matches 59 (cap_or 1 h))) = or_nil (f_style x)) as Hc.
  { intros l1 x l2 E Hk H1. destruct x as [ds k| | | | | | | | | | ]; try discriminate Hk. assert (ok (Style ds k)) as Ho by (apply Hok; rewrite E; apply in_or_app; right; left; reflexivity).
    destruct (style_words ds k Ho) as (W1 & W2 & W3). destruct (style_at (rev (items_text l1)) _ (items_text l2) W2 W3) as (s & Es & Ea & Ec). eexists. split; [|split].
    - rewrite E, items_cut, style_text. apply captures_at; [|exact Es]. apply (start_skip 123). exact H1.
    - rewrite style_text. apply hit_text. exact Ea.
    - unfold cap_or, cap_opt, mk_hit_of. cbn [h_caps]. rewrite Ec. exact W1. }
  destruct (stage (rx_re ATTR_STYLE_RE) 123 0 l Hd) as [(E & F)|(l1 & x & l2 & h & E & Hk & Hy & H1 & H2 & Eh & Et & Ee)].
  - intros x Hx. apply brace_free. apply Hok, Hx.
  - intros t Ht. apply (start_none 123). exact Ht.
  - intros l1 x l2 E Hk H1 H2. destruct (Hc l1 x l2 E Hk H1) as (h & Hh & Ht & _). destruct x as [ds k| | | | | | | | | | ]; try discriminate Hk. eexists. split; [apply style_text|]. exists h. split; assumption.
  - rewrite E. rewrite pick_none by (intros x Hx; apply Hf, F, Hx). rewrite rem_none by exact F. reflexivity.
  - destruct (Hc l1 x l2 E Hk H1) as (h' & Hh' & _ & Hv). assert (h' = h) as -> by congruence. rewrite Eh, Ee, Hv. f_equal. rewrite E. rewrite pick_cut by (intros y F; apply Hf, Hy, F). reflexivity.
Qed.
(** ** Languages *)
Definition f_lang (x : item) : option str := match x with Lang l => Some l | _ => None end.
Lemma lang_stage : (forall x, In x l -> kind x <> 0%nat \/ restricted = true) ->
  match captures (rx_re ATTR_LANG_RE) (items_text l) with
  | Some h => (cap_opt 1 h, erase (items_text l) h)
  | None => (None, items_text l)
  end = (pick f_lang l, items_text (rem 1 l)).
Proof.
  intros Hr. set (nb := mk_cls true [CRange 93 93]).
  assert (forall x, kind x <> 1%nat -> f_lang x = None) as Hf by (intros [] F; try reflexivity; cbn in F; congruence).
  assert (forall l1 x l2, l = l1 ++ x :: l2 -> kind x = 1%nat -> ~ In 91 (items_text l1) ->
     exists h, captures (rx_re ATTR_LANG_RE) (items_text l) = Some h /\ h_text h = item_text x /\ cap_opt 1 h = f_lang x) as Hc.
  { intros l1 x l2 E Hk H1. destruct x as [|w| | | | | | | | | ]; try discriminate Hk. assert (ok (Lang w)) as Ho by (apply Hok; rewrite E; apply in_or_app; right; left; reflexivity).
    destruct Ho as (W1 & W2 & _). assert (forallb (in_cls nb) w = true) as W3.
    { apply forallb_forall. intros x Hx. unfold nb, in_cls. cbn [c_neg c_items existsb in_item]. rewrite range_one, orb_false_r. destruct (N.eqb_spec x 93) as [->|]; [|reflexivity]. exfalso. revert Hx. apply W2. in_fixed. }
    destruct (enclosed_at 91 93 nb (rev (items_text l1)) w (items_text l2) W1 W3 eq_refl) as (s & Es & Ea & Ec). eexists. split; [|split].
    - rewrite E, items_cut. apply captures_at; [|exact Es]. apply (start_skip 91). exact H1.
    - apply hit_text. exact Ea.
    - unfold cap_opt, mk_hit_of. cbn [h_caps]. exact Ec. }
  destruct (stage (rx_re ATTR_LANG_RE) 91 1 l Hd) as [(E & F)|(l1 & x & l2 & h & E & Hk & Hy & H1 & H2 & Eh & Et & Ee)].
  - intros x Hx Hk. apply bracket_free; auto.
  - intros t Ht. apply (start_none 91). exact Ht.
  - intros l1 x l2 E Hk H1 H2. destruct (Hc l1 x l2 E Hk H1) as (h & Hh & Ht & _). destruct x as [|w| | | | | | | | | ]; try discriminate Hk. eexists. split; [reflexivity|]. exists h. split; assumption.
  - rewrite E. rewrite pick_none by (intros x Hx; apply Hf, F, Hx). rewrite rem_none by exact F. reflexivity.
  - destruct (Hc l1 x l2 E Hk H1) as (h' & Hh' & _ & Hv). assert (h' = h) as -> by congruence. rewrite Eh, Ee, Hv. f_equal. rewrite E. rewrite pick_cut by (intros y F; apply Hf, Hy, F). reflexivity.
Qed.
(** ** Padding *)
Definition f_padl (x : item) : option (list str) := match x with PadLeft n => Some [u "padding-left:" ++ dec (N.of_nat n) ++ u "em"] | _ => None end.
Definition f_padr (x : item) : option (list str) := match x with PadRight n => Some [u "padding-right:" ++ dec (N.of_nat n) ++ u "em"] | _ => None end.
Lemma blen_ascii c n : c < 128 -> blen (repeat c n) = n.
Proof. intros H. induction n as [|n IH]; [reflexivity|]. cbn [repeat blen]. unfold utf8_len. rewrite (proj2 (N.ltb_lt _ _) H), IH. reflexivity. Qed.
Lemma pad_stage d k (f : item -> option (list str)) name : d < 128 ->
  (forall x, kind x <> k -> f x = None) -> (forall x, kind x = k -> ok x -> exists n, item_text x = repeat d (S n) /\ f x = Some [u name ++ dec (N.of_nat (S n)) ++ u "em"]) ->
  (forall x, In x l -> kind x <> k -> ~ In d (item_text x)) ->
  match captures (run_re d) (items_text l) with
  | Some h => ([u name ++ dec (N.of_nat (blen (cap_or 1 h))) ++ u "em"], erase (items_text l) h)
  | None => ([], items_text l)
  end = (or_nil (pick f l), items_text (rem k l)).
Proof.
  intros Hd' Hf Hx Ho.
  assert (forall l1 x l2, l = l1 ++ x :: l2 -> kind x = k -> ~ In d (items_text l1) -> ~ In d (items_text l2) ->
     exists w, item_text x = d :: w /\ exists h, captures (run_re d) (items_text l) = Some h /\ h_text h = item_text x /\ [u name ++ dec (N.of_nat (blen (cap_or 1 h))) ++ u "em"] = or_nil (f x)) as Hc.
  { intros l1 x l2 E Hk H1 H2. destruct (Hx x Hk) as (n & En & Ef); [apply Hok; rewrite E; apply in_or_app; right; left; reflexivity|].
    destruct (run_at d (rev (items_text l1)) n (items_text l2) H2) as (s & Es & Ea & Ec). exists (repeat d n). split; [exact En|]. eexists. split; [|split].
    - rewrite E, items_cut, En. apply captures_at; [|exact Es]. apply run_skip. exact H1.
    - rewrite En. apply hit_text. exact Ea.
    - unfold cap_or, cap_opt, mk_hit_of. cbn [h_caps]. rewrite Ec, Ef, blen_ascii by exact Hd'. reflexivity. }
  destruct (stage (run_re d) d k l Hd) as [(E & F)|(l1 & x & l2 & h & E & Hk & Hy & H1 & H2 & Eh & Et & Ee)].
  - exact Ho.
  - apply run_none.
  - intros l1 x l2 E Hk H1 H2. destruct (Hc l1 x l2 E Hk H1 H2) as (w & Ew & h & Hh & Ht & _). exists w. split; [exact Ew|]. exists h. split; assumption.
  - rewrite E. rewrite pick_none by (intros x Hi; apply Hf, F, Hi). rewrite rem_none by exact F. reflexivity.
  - destruct (Hc l1 x l2 E Hk H1 H2) as (w & _ & h' & Hh' & _ & Hv). assert (h' = h) as -> by congruence. rewrite Eh, Ee, Hv. f_equal. rewrite E. rewrite pick_cut by (intros y F; apply Hf, Hy, F). reflexivity.
Qed.
End ITEMS.
