(** Tables. *)
From Coq Require Import ZArith.
From Verif Require Import Str Unicode Regex RegexParse RegexSnips RegexTheory RegexAuto RegexGroups Lib ModelBase ModelHtml ModelUrl
  ModelAttrs ModelInline ModelParser SpecRegex ProofRegex SpecHtml ProofHtml ProofCharref SpecParse ProofParse Logic ProofWalk ProofState SpecState ProofMemory ProofCache ProofLinks ProofSpan ProofDoc
  SpecPlain ProofPlain SpecNewlines ProofNewlines ProofParas ProofTags ProofSections ProofBlocks ProofStateEx SpecDoc ProofDocument SpecText ProofText ProofPieces ProofWeave SpecLists ProofLists ProofListText ProofListDoc SpecTables.

(** ** The shapes of source and result *)
Definition starts_at (q : nat) : list trans := map (fun tr => (q, snd (fst tr), snd tr)) (filter (fun tr => Nat.eqb (fst (fst tr)) 1) (au_trans cell_text)).
(** Where a bar may follow. *)
Definition ends : list nat := (241 :: 245 :: 244 :: au_final cell_text)%nat.
Definition vmarks : cls := one_of (u "-^~").
(** A row: 240 before it, 241 after a bar, 245 after the first bar of the table, 244 after the marks of a cell. *)
Definition row_t (rich : bool) : list trans :=
  (au_trans cell_text ++ (starts_at 241 ++ starts_at 244 ++ starts_at 245) ++ (map (fun q => (q, one_of (u "|"), 241)) (240 :: ends) ++ [(246, one_of (u "|"), 245)])
   ++ ([(241, one_of (u "_"), 242); (245, one_of (u "_"), 242)] ++ map (fun q => (q, one_of (u "\"), 250)) [241; 245; 242] ++ [(250, digit, 250)]
       ++ map (fun q => (q, one_of (u "/"), 252)) [241; 245; 242; 250] ++ [(252, digit, 252)]
       ++ map (fun q => (q, vmarks, 254)) [241; 245; 242; 250; 252] ++ map (fun q => (q, one_of (u "="), 255)) [241; 242; 250; 252; 254]
       ++ (if rich then map (fun q => (q, one_of (u ">"), 255)) [241; 245; 242; 250; 252; 254; 256] ++ map (fun q => (q, one_of (u "<"), 256)) [241; 245; 242; 250; 252; 254] else [])
       ++ map (fun q => (q, dot, 243)) [241; 245; 242; 250; 252; 254; 255; 256] ++ [(243, blank, 244)]))%nat.
Definition base (rich : bool) : auto := mk_auto (row_t rich) 240%nat ends.
(** The line of a group; 263 after the mark. *)
Definition group_t : list trans := [(240, one_of (u "|"), 261); (246, one_of (u "|"), 261); (261, vmarks, 262); (262, dot, 263); (263, newline, 240)]%nat.
Definition body_a : auto := base true.
Definition piece_of_a (rich : bool) : auto := mk_auto (row_t rich ++ group_t) 240%nat ends.
Definition piece_a : auto := piece_of_a true.
Definition first_a : auto := mk_auto (row_t true ++ group_t) 246%nat ends.
(** The caption. *)
Definition caption_t : list trans :=
  ([(246, one_of (u "|"), 271); (271, one_of (u "="), 272); (272, dot, 273); (273, blank, 274)] ++ starts_at 274 ++ map (fun q => (q, newline, 240)) (274 :: au_final cell_text))%nat.
Definition bars_a (q : nat) : auto := mk_auto (row_t true ++ group_t ++ caption_t)%nat q [241%nat].
Definition rows_of_a (rich : bool) : auto := mk_auto (row_t rich ++ group_t ++ caption_t ++ [(241, newline, 240)])%nat 246%nat [241%nat].
Definition rows_a : auto := rows_of_a true.
Definition small : cls := one_of (u "abcdefghijklmnopqrstuvwxyz").
(** The result: 320 and 415 before a new line, 425 after its first tab, 357 in the tag of a cell, 356 in the cell, 365 after it. *)
Definition atts_t : list trans :=
  ([(357, one_of (u ">"), 356); (357, blank, 600); (600, small, 600); (600, one_of (u "="), 601); (601, one_of (u """"), 602);
    (602, digit, 602); (602, one_of (u """"), 357); (602, small, 603); (603, small, 603); (603, one_of (u "-:"), 604); (604, small, 603); (603, one_of (u ";"), 605);
    (605, blank, 604); (605, one_of (u """"), 357)])%nat.
Definition table_a : auto := mk_auto
  ((au_trans cell_text ++ starts_at 356) ++ atts_t ++ (reads 300 301 (u "	<table>") 320 ++ flat_map (fun q => reads q 330 (u "
	") 425) [320; 415] ++ [(425, one_of tab, 335)] ++ reads 335 340 (u "<tr>") 345 ++ reads 345 350 (u "
			") 355 ++ reads 355 360 (u "<t") 370 ++ [(370, one_of (u "dh"), 357)] ++
   flat_map (fun q => reads q 380 (u "</t") 384 ++ reads q 390 (u "</c") 394) (356 :: au_final cell_text) ++ [(384, one_of (u "dh"), 385); (385, one_of (u ">"), 365); (394, small, 394); (394, one_of (u ">"), 395); (395, newline, 320)] ++
   reads 365 400 (u "
		") 405 ++ [(405, one_of tab, 355)] ++ reads 405 410 (u "</tr>") 415 ++ reads 425 430 (u "</table>") 445
   ++ reads 425 450 (u "<c") 452 ++ [(452, small, 452); (452, one_of (u ">"), 356)] ++ reads 425 454 (u "<t") 456 ++ [(456, small, 456); (456, one_of (u ">"), 320)] ++ reads 425 460 (u "</t") 464 ++ [(464, small, 464); (464, one_of (u ">"), 415)]))%nat 300%nat [445%nat].

Lemma rows_inert : forallb (fun r => never rows_a (rx_re r)) [SPECIAL_NOTEXTILE; SPECIAL_EQ; SPECIAL_CODE; SPECIAL_AT; SPECIAL_PRE; SPECIAL_COMMENT; RESTRICTED_URLREF_RE; UNRESTRICTED_URLREF_RE; QUOTED_QUOTE_RE; SLICE_RE; IMAGE_RE; TEXTILE_TAG_RE; DIVIDER_RE; NOTEDEF_RE] = true.
Proof. vm_compute. reflexivity. Qed.
Definition rows_re : list re := Eval unfold small_re, removelast in removelast small_re.
Lemma rows_small : forallb (never rows_a) (tl (tl rows_re)) && forallb (never (rows_of_a false)) (firstn 2 rows_re) = true.
Proof. vm_compute. reflexivity. Qed.
Definition ws_cls : cls := mk_cls false [CProp false PSpace].
Definition bar : cls := one 124.
Definition valign : cls := mk_cls false [CRange 45 45; CRange 94 94; CRange 126 126].
Definition grp_re : re := Eval vm_compute in match rx_re GRPMATCH_RE with RSeq (RAlt g _) _ => g | _ => REps end.
Lemma row_bars : never (bars_a 240) (RSeq (RCls bar) (RCls ws_cls)) && never (bars_a 246) (RSeq (RCls bar) (RCls ws_cls)) = true.
Proof. vm_compute. reflexivity. Qed.
Lemma body_inert : forallb (never body_a) [grp_re; rx_re RMTCH_RE] && never piece_a (rx_re COLGROUP_RE) && never first_a (rx_re COLGROUP_RE) && never first_a (rx_re CAPTION_RE) = true.
Proof. vm_compute. reflexivity. Qed.
Lemma cell_inert : forallb (never cell_text) (start_cls ws_cls :: map (fun c => RCls (ch c)) [10; 124; 60; 62] ++ map rx_re [HEADING_RE; CMTCH_RE; RC_PATTERN; LIST_RE]) = true.
Proof. vm_compute. reflexivity. Qed.
Lemma starts_in q l q' : In (1%nat, l, q') (au_trans cell_text) -> In (q, l, q') (starts_at q).
Proof. intros H. apply in_map_iff. exists (1%nat, l, q'). split; [reflexivity|]. apply filter_In. split; [exact H|reflexivity]. Qed.
(** A text of a cell from another start state. *)
Lemma text_run A q t rest : (t = [] \/ accepts cell_text t) -> incl (au_trans cell_text) (au_trans A) -> incl (starts_at q) (au_trans A) ->
  (forall f, In f (q :: au_final cell_text) -> Suf A f rest) -> Suf A q (t ++ rest).
Proof.
  intros Hp Hi Hs Hr. destruct Hp as [->|Hp]; [apply Hr; left; reflexivity|]. inversion Hp as [q0 Hf|q0 k q' c t' Ht Hc Ht']; subst; [vm_compute in Hf; intuition discriminate|].
  cbn [app]. eapply SufCons; [apply Hs, starts_in; exact Ht|exact Hc|]. apply (tail_ok cell_text q' t' Ht' A Hi). intros f Hf. apply Hr. right. exact Hf.
Qed.
Lemma text_trans rich : incl (au_trans cell_text) (au_trans (base rich)) /\ forall q, In q [241; 244; 245]%nat -> incl (starts_at q) (au_trans (base rich)).
Proof.
  split; intros x; [intros Hx; apply in_or_app; left; exact Hx|]. intros Hq y Hy. unfold base, row_t. cbn [au_trans]. apply in_or_app. right. apply in_or_app. left. destruct Hq as [<-|[<-|[<-|[]]]]; [apply in_or_app; left; exact Hy|apply in_or_app; right; apply in_or_app; left; exact Hy|apply in_or_app; right; apply in_or_app; right; exact Hy].
Qed.
(** ** The marks of a cell *)
Definition ok_mark (rich : bool) (q : nat) (a : option SpecAtts.halign) : Prop :=
  (rich = false -> a = None \/ a = Some SpecAtts.Center) /\ (q = 245%nat -> a <> Some SpecAtts.Center).
Definition opt_text {X} (f : X -> str) (o : option X) : str := match o with Some x => f x | None => [] end.
Lemma marks_are c : SpecAtts.items_text (items_of c) =
  (if c_head c then [95] else []) ++ opt_text (fun n => 92 :: dec n) (c_col c) ++ opt_text (fun n => 47 :: dec n) (c_row c) ++ opt_text SpecAtts.valign_mark (c_valign c) ++ opt_text SpecAtts.halign_mark (c_halign c).
Proof.
  unfold items_of, SpecAtts.items_text. rewrite !flat_map_app. destruct (c_head c), (c_col c), (c_row c), (c_valign c), (c_halign c); cbn [opt_text flat_map SpecAtts.item_text app]; rewrite ?app_nil_r; reflexivity.
Qed.
Ltac each H := repeat (destruct H as [<-|H]; [|]); [..|destruct H].
Section Marks.
Variables (rich : bool) (rest : str).
Hypothesis Hr : Suf (base rich) 244 rest.
Notation B := (base rich).
Lemma run_stop q : In q [241; 245; 242; 250; 252; 254; 255; 256]%nat -> Suf B q (u ". " ++ rest).
Proof. intros Hq. apply (walk_to B q 244); [|exact Hr]. clear Hr. destruct rich; each Hq; vm_compute; reflexivity. Qed.
Lemma run_halign q a : In q [241; 245; 242; 250; 252; 254]%nat -> ok_mark rich q a -> Suf B q (opt_text SpecAtts.halign_mark a ++ u ". " ++ rest).
Proof.
  intros Hq [H1 H2]. destruct a as [a|]; [|apply run_stop; cbn [In] in *; tauto].
  pose proof run_stop as RS. clear Hr. destruct rich.
  - destruct a; cbn [opt_text].
    + apply (walk_to (base true) q 256); [each Hq; vm_compute; reflexivity|]. apply RS. cbn [In]. tauto.
    + apply (walk_to (base true) q 255); [each Hq; vm_compute; reflexivity|]. apply RS. cbn [In]. tauto.
    + apply (walk_to (base true) q 255); [each Hq; try (exfalso; apply H2; reflexivity); vm_compute; reflexivity|]. apply RS. cbn [In]. tauto.
    + apply (walk_to (base true) q 255); [each Hq; vm_compute; reflexivity|]. apply RS. cbn [In]. tauto.
  - destruct (H1 eq_refl) as [F|F]; [discriminate|]. inversion F; subst a. cbn [opt_text]. apply (walk_to (base false) q 255); [each Hq; try (exfalso; apply H2; reflexivity); vm_compute; reflexivity|]. apply RS. cbn [In]. tauto.
Qed.
Lemma run_valign q v a : In q [241; 245; 242; 250; 252]%nat -> (rich = false -> a = None \/ a = Some SpecAtts.Center) -> (q = 245%nat -> v = None -> a <> Some SpecAtts.Center) ->
  Suf B q (opt_text SpecAtts.valign_mark v ++ opt_text SpecAtts.halign_mark a ++ u ". " ++ rest).
Proof.
  intros Hq H1 H2. destruct v as [v|]; [|cbn [opt_text app]; apply run_halign; [cbn [In] in *; tauto|split; auto]].
  apply (walk_to B q 254); [clear Hr; destruct rich, v; each Hq; vm_compute; reflexivity|]. apply run_halign; [cbn [In]; tauto|]. split; [exact H1|discriminate].
Qed.
Lemma run_digits q n w : In q [250; 252]%nat -> Suf B q w -> Suf B q (dec n ++ w).
Proof.
  intros Hq Hw. apply digits_run; [|apply dec_digit|exact Hw]. apply (digit_cases (fun d => mem q (walk B [q] [d]))). clear Hr. destruct rich; each Hq; vm_compute; reflexivity.
Qed.
Lemma run_row q n v a : In q [241; 245; 242; 250]%nat -> (rich = false -> a = None \/ a = Some SpecAtts.Center) -> (q = 245%nat -> n = None -> v = None -> a <> Some SpecAtts.Center) ->
  Suf B q (opt_text (fun n => 47 :: dec n) n ++ opt_text SpecAtts.valign_mark v ++ opt_text SpecAtts.halign_mark a ++ u ". " ++ rest).
Proof.
  intros Hq H1 H2. destruct n as [n|]; cbn [opt_text app]; [|apply run_valign; [cbn [In] in *; tauto|auto..]].
  apply (walk_to B q 252 [47]); [clear Hr; destruct rich; each Hq; vm_compute; reflexivity|]. apply run_digits; [cbn [In]; tauto|]. apply run_valign; [cbn [In]; tauto|auto|discriminate].
Qed.
Lemma run_col q m n v a : In q [241; 245; 242]%nat -> (rich = false -> a = None \/ a = Some SpecAtts.Center) -> (q = 245%nat -> m = None -> n = None -> v = None -> a <> Some SpecAtts.Center) ->
  Suf B q (opt_text (fun n => 92 :: dec n) m ++ opt_text (fun n => 47 :: dec n) n ++ opt_text SpecAtts.valign_mark v ++ opt_text SpecAtts.halign_mark a ++ u ". " ++ rest).
Proof.
  intros Hq H1 H2. destruct m as [m|]; cbn [opt_text app]; [|apply run_row; [cbn [In] in *; tauto|auto..]].
  apply (walk_to B q 250 [92]); [clear Hr; destruct rich; each Hq; vm_compute; reflexivity|]. apply run_digits; [cbn [In]; tauto|]. apply run_row; [cbn [In]; tauto|auto|discriminate].
Qed.
Lemma run_marks q c : In q [241; 245]%nat -> proper_cell (negb rich) c -> (q = 245%nat -> ~ caption_like c) -> items_of c <> [] -> Suf B q (marks_of c ++ rest).
Proof.
  intros Hq [_ Hp] Hc Hn. assert (marks_of c = SpecAtts.items_text (items_of c) ++ u ". ") as -> by (unfold marks_of; destruct (items_of c); [congruence|reflexivity]).
  rewrite marks_are. rewrite <- !app_assoc. assert (rich = false -> c_halign c = None \/ c_halign c = Some SpecAtts.Center) as H1 by (intros ->; apply Hp; reflexivity).
  destruct c as [h m n v a t]; cbn [c_head c_col c_row c_valign c_halign c_text] in *. destruct h.
  - apply (walk_to B q 242 [95]); [clear Hr; destruct rich; each Hq; vm_compute; reflexivity|]. apply run_col; [cbn [In]; tauto|exact H1|discriminate].
  - cbn [app]. apply run_col; [cbn [In] in *; tauto|exact H1|]. intros -> -> -> -> ->. apply (Hc eq_refl). reflexivity.
Qed.
End Marks.
(** ** Cells and rows *)
Lemma cell_rest rich q c : proper_cell (negb rich) c -> (q = 245%nat -> ~ caption_like c) -> In q [241; 245]%nat -> Suf (base rich) q (cell_source c).
Proof.
  intros Hp Hc Hq. destruct (text_trans rich) as [T1 T2]. unfold cell_source.
  assert (Hf : forall q f, In q [241; 244; 245]%nat -> In f (q :: au_final cell_text) -> Suf (base rich) f []).
  { intros q0 f H0 [<-|F]; apply SufNil; unfold base; cbn [au_final]; unfold ends; [destruct H0 as [<-|[<-|[<-|[]]]]; [left; reflexivity|right; right; left; reflexivity|right; left; reflexivity]|right; right; right; exact F]. }
  destruct (items_of c) eqn:E.
  - assert (marks_of c = []) as -> by (unfold marks_of; rewrite E; reflexivity). cbn [app]. rewrite <- (app_nil_r (c_text c)). apply text_run; [apply Hp|exact T1|apply T2; cbn [In] in *; tauto|]. intros f F. apply (Hf q); [cbn [In] in *; tauto|exact F].
  - apply run_marks; auto; [|congruence]. rewrite <- (app_nil_r (c_text c)). apply text_run; [apply Hp|exact T1|apply T2; cbn [In]; tauto|]. intros f F. apply (Hf 244%nat); [cbn [In]; tauto|exact F].
Qed.
Lemma bar_run rich q w : In q (240%nat :: ends) -> Suf (base rich) 241 w -> Suf (base rich) q (124 :: w).
Proof.
  intros Hq H. eapply SufCons with (l := one_of (u "|")); [|reflexivity|exact H]. unfold base, row_t. cbn [au_trans]. do 2 (apply in_or_app; right). apply in_or_app. left. apply in_or_app. left. apply in_map_iff. exists q. split; [reflexivity|exact Hq].
Qed.
Lemma body_run rich q r : r <> [] -> (forall c, In c r -> proper_cell (negb rich) c) -> In q (240%nat :: ends) -> Suf (base rich) q (row_body r).
Proof.
  intros Hn Hp. revert q. induction r as [|c r IH]; [congruence|]. intros q Hq. unfold row_body. cbn [flat_map app]. fold (row_body r). apply bar_run; [exact Hq|].
  assert (H : Suf (base rich) 241 (cell_source c)) by (apply cell_rest; [apply Hp; left; reflexivity|discriminate|cbn [In]; tauto]).
  destruct r as [|c2 r]; [unfold row_body; cbn [flat_map]; rewrite app_nil_r; exact H|].
  apply (tail_ok (base rich) _ _ H (base rich)); [intros x Hx; exact Hx|]. intros f F. apply IH; [discriminate|intros c3 H3; apply Hp; right; exact H3|right; exact F].
Qed.
Lemma first_run rich c r : (forall x, In x (c :: r) -> proper_cell (negb rich) x) -> ~ caption_like c -> Suf (base rich) 246 (row_body (c :: r)).
Proof.
  intros Hp Hc. unfold row_body. cbn [flat_map app]. fold (row_body r). eapply SufCons with (l := one_of (u "|")) (q' := 245%nat); [|reflexivity|].
  { unfold base, row_t. cbn [au_trans]. do 2 (apply in_or_app; right). apply in_or_app. left. apply in_or_app. right. left. reflexivity. }
  assert (H : Suf (base rich) 245 (cell_source c)) by (apply cell_rest; [apply Hp; left; reflexivity|auto|cbn [In]; tauto]).
  destruct r as [|c2 r]; [unfold row_body; cbn [flat_map]; rewrite app_nil_r; exact H|].
  apply (tail_ok (base rich) _ _ H (base rich)); [intros x Hx; exact Hx|]. intros f F. apply body_run; [discriminate|intros c3 H3; apply Hp; right; exact H3|right; exact F].
Qed.
(** ** The pieces between the bars at the ends of lines *)
Definition group_pieces (g : group * list (list cell)) : list str :=
  match snd g with [] => [] | r :: rs => ([124; group_mark (fst g); 46; 10] ++ row_body r) :: map row_body rs end.
Definition raw_pieces (t : tableau) : list str := map row_body (t_loose t) ++ flat_map group_pieces (t_groups t).
Definition with_caption (o : option str) (l : list str) : list str :=
  match o, l with Some c, p :: l' => ((u "|=. " ++ c ++ [10]) ++ p) :: l' | _, _ => l end.
Definition pieces (t : tableau) : list str := with_caption (t_caption t) (raw_pieces t).
Definition line_of (p : str) : str := 10 :: p ++ [124].
Lemma join_lines x (l : list str) : join [10] (x :: l) = x ++ flat_map (cons 10) l.
Proof.
  revert x. induction l as [|y l IH]; intros x; [cbn [join flat_map]; rewrite app_nil_r; reflexivity|]. change (join [10] (x :: y :: l)) with (x ++ [10] ++ join [10] (y :: l)). rewrite IH. reflexivity.
Qed.
Lemma raw_lines t : (forall g, In g (t_groups t) -> snd g <> []) -> flat_map (cons 10) (map row_source (t_loose t) ++ flat_map group_source (t_groups t)) = flat_map line_of (raw_pieces t).
Proof.
  intros H. unfold raw_pieces. rewrite !flat_map_app.
  assert (R : forall rs, flat_map (cons 10) (map row_source rs) = flat_map line_of (map row_body rs)) by (induction rs as [|r rs IH]; [reflexivity|]; cbn [map flat_map]; rewrite IH; reflexivity).
  rewrite R. f_equal. destruct t as [c l gs]. cbn [t_groups] in *. clear - H R. induction gs as [|[g rs] gs IH]; [reflexivity|]. cbn [flat_map]. rewrite !flat_map_app, IH by (intros g0 Hg; apply H; right; exact Hg). f_equal.
  destruct rs as [|r rs]; [exfalso; apply (H (g, []) (or_introl eq_refl)); reflexivity|]. unfold group_source, group_pieces. cbn [fst snd map flat_map]. rewrite R. unfold row_source at 1, line_of at 2. cbn [app]. rewrite <- !app_assoc. reflexivity.
Qed.
Lemma raw_some t : all_rows t <> [] -> (forall g, In g (t_groups t) -> snd g <> []) -> raw_pieces t <> [].
Proof.
  unfold all_rows, raw_pieces. destruct t as [c l gs]. cbn [t_loose t_groups]. intros Hn H F. apply app_eq_nil in F as [F1 F2]. destruct l; [|discriminate]. cbn [app] in Hn. destruct gs as [|[g rs] gs]; [apply Hn; reflexivity|].
  cbn [flat_map] in F2. apply app_eq_nil in F2 as [F2 _]. destruct rs; [apply (H (g, []) (or_introl eq_refl)); reflexivity|]. discriminate.
Qed.
Lemma source_pieces t : all_rows t <> [] -> (forall g, In g (t_groups t) -> snd g <> []) -> exists p ps, raw_pieces t = p :: ps /\ table_source t = (opt_text (fun c => u "|=. " ++ c ++ [10]) (t_caption t) ++ p) ++ 124 :: flat_map line_of ps.
Proof.
  intros Hn H. pose proof (raw_lines t H) as E. pose proof (raw_some t Hn H) as Hs. destruct (raw_pieces t) as [|p ps]; [congruence|]. exists p, ps. split; [reflexivity|].
  unfold table_source, caption_source. remember (map row_source (t_loose t) ++ flat_map group_source (t_groups t)) as L eqn:EL. clear EL. cbn [flat_map] in E. unfold line_of at 1 in E. cbn [app] in E. rewrite <- app_assoc in E. cbn [app] in E.
  destruct (t_caption t) as [c|]; cbn [opt_text app].
  - rewrite join_lines, E. rewrite <- !app_assoc. reflexivity.
  - destruct L as [|x L]; [discriminate|]. cbn [flat_map] in E. rewrite join_lines. injection E as E. exact E.
Qed.
Lemma row_piece rich r : proper_row (negb rich) r -> Suf (piece_of_a rich) 240 (row_body r).
Proof.
  intros [H1 H2]. rewrite <- (app_nil_r (row_body r)). apply (tail_ok (base rich) 240 (row_body r)); [apply body_run; auto; left; reflexivity|intros x Hx; apply in_or_app; left; exact Hx|]. intros f F. apply SufNil. exact F.
Qed.
Lemma group_line rich q g w : In q [240; 246]%nat -> Suf (piece_of_a rich) 240 w -> Suf (piece_of_a rich) q ([124; group_mark g; 46; 10] ++ w).
Proof. intros Hq H. apply (walk_to (piece_of_a rich) q 240); [|exact H]. destruct rich, g; each Hq; vm_compute; reflexivity. Qed.
Lemma piece_run rich t p : (forall r, In r (all_rows t) -> proper_row (negb rich) r) -> In p (raw_pieces t) -> Suf (piece_of_a rich) 240 p.
Proof.
  intros H Hp. unfold raw_pieces, all_rows in *. apply in_app_or in Hp as [Hp|Hp].
  - apply in_map_iff in Hp as (r & <- & Hr). apply row_piece, H, in_or_app. left. exact Hr.
  - apply in_flat_map in Hp as ([g rs] & Hg & Hp). assert (G : forall r, In r rs -> proper_row (negb rich) r) by (intros r Hr; apply H, in_or_app; right; apply in_flat_map; exists (g, rs); split; [exact Hg|exact Hr]).
    unfold group_pieces in Hp. cbn [fst snd] in Hp. destruct rs as [|r rs]; [destruct Hp|]. destruct Hp as [<-|Hp].
    + apply group_line; [left; reflexivity|]. apply row_piece, G. left. reflexivity.
    + apply in_map_iff in Hp as (r2 & <- & Hr). apply row_piece, G. right. exact Hr.
Qed.
Lemma first_piece rich t p ps : proper_table (negb rich) t -> t_caption t = None -> raw_pieces t = p :: ps -> Suf (piece_of_a rich) 246 p.
Proof.
  intros (H1 & H2 & H3 & H4) Ec E. rewrite Ec in H4. unfold raw_pieces, all_rows in *. destruct (t_loose t) as [|r rs] eqn:El.
  - cbn [map app] in *. destruct (t_groups t) as [|[g rs] gs]; [discriminate|]. cbn [flat_map] in E. destruct rs as [|r rs]; [exfalso; apply (H3 (g, []) (or_introl eq_refl)); reflexivity|].
    unfold group_pieces in E. cbn [fst snd] in E. injection E as E _. rewrite <- E. apply (group_line rich 246 g); [right; left; reflexivity|]. apply row_piece, H2. cbn [flat_map snd app]. left. reflexivity.
  - cbn [map app] in *. injection E as E _. rewrite <- E. pose proof (H2 r (or_introl eq_refl)) as [N1 N2]. destruct r as [|c r]; [congruence|]. rewrite <- (app_nil_r (row_body (c :: r))).
    apply (tail_ok (base rich) 246 (row_body (c :: r))); [apply first_run; [exact N2|apply (H4 c r rs eq_refl)]|intros x Hx; apply in_or_app; left; exact Hx|]. intros f F. apply SufNil. exact F.
Qed.
(** ** The whole source *)
Lemma bar_after rich A f w : incl (row_t rich) (au_trans A) -> In f ends -> Suf A 241 w -> Suf A f (124 :: w).
Proof.
  intros Hi Hf H. eapply SufCons with (l := one_of (u "|")); [|reflexivity|exact H]. apply Hi. unfold row_t. do 2 (apply in_or_app; right). apply in_or_app. left. apply in_or_app. left. apply in_map_iff. exists f. split; [reflexivity|right; exact Hf].
Qed.
Lemma piece_in_rows rich : incl (au_trans (piece_of_a rich)) (au_trans (rows_of_a rich)).
Proof. intros x Hx. unfold rows_of_a, piece_of_a in *. cbn [au_trans] in *. rewrite app_assoc. apply in_or_app. left. exact Hx. Qed.
Lemma row_in_rows rich : incl (row_t rich) (au_trans (rows_of_a rich)).
Proof. intros x Hx. apply piece_in_rows. apply in_or_app. left. exact Hx. Qed.
Lemma lines_run rich ps : (forall p, In p ps -> Suf (piece_of_a rich) 240 p) -> Suf (rows_of_a rich) 241 (flat_map line_of ps).
Proof.
  induction ps as [|p ps IH]; intros H; [apply SufNil; left; reflexivity|]. cbn [flat_map]. unfold line_of. cbn [app]. eapply SufCons with (l := newline) (q' := 240%nat); [|reflexivity|].
  { unfold rows_of_a. cbn [au_trans]. do 3 (apply in_or_app; right). left. reflexivity. }
  rewrite <- app_assoc. apply (tail_ok (piece_of_a rich) 240 p); [apply H; left; reflexivity|apply piece_in_rows|]. intros f F. apply (bar_after rich); [apply row_in_rows|exact F|]. apply IH. intros q Hq. apply H. right. exact Hq.
Qed.
Lemma caption_run A c w : accepts cell_text c -> incl caption_t (au_trans A) -> incl (au_trans cell_text) (au_trans A) -> Suf A 240 w -> Suf A 246 ((u "|=. " ++ c ++ [10]) ++ w).
Proof.
  intros Hc Hi Ht H. rewrite <- app_assoc. change (u "|=. ") with [124; 61; 46; 32]. cbn [app]. do 4 (eapply SufCons; [apply Hi; unfold caption_t; apply in_or_app; left; cbn [In]; eauto 6|reflexivity|]).
  rewrite <- app_assoc. apply text_run; [right; exact Hc|exact Ht|intros x Hx; apply Hi; unfold caption_t; apply in_or_app; right; apply in_or_app; left; exact Hx|].
  intros f F. cbn [app]. eapply SufCons with (l := newline); [|reflexivity|exact H]. apply Hi. unfold caption_t. do 2 (apply in_or_app; right). apply in_map_iff. exists f. split; [reflexivity|exact F].
Qed.
Lemma text_in_rows rich : incl (au_trans cell_text) (au_trans (rows_of_a rich)).
Proof. intros x Hx. apply row_in_rows. apply in_or_app. left. exact Hx. Qed.
Lemma rows_accepts rich t : proper_table (negb rich) t -> accepts (rows_of_a rich) (table_source t).
Proof.
  intros Ht. pose proof Ht as (H1 & H2 & H3 & H4). destruct (source_pieces t H1 H3) as (p & ps & E & ->). unfold accepts. change (au_start (rows_of_a rich)) with 246%nat.
  assert (P : forall x, In x (p :: ps) -> Suf (piece_of_a rich) 240 x) by (intros x Hx; apply (piece_run rich t); [exact H2|rewrite E; exact Hx]).
  assert (L : Suf (rows_of_a rich) 241 (flat_map line_of ps)) by (apply lines_run; intros x Hx; apply P; right; exact Hx).
  assert (Q : forall q, Suf (piece_of_a rich) q p -> Suf (rows_of_a rich) q (p ++ 124 :: flat_map line_of ps)).
  { intros q Hq. apply (tail_ok (piece_of_a rich) q p Hq); [apply piece_in_rows|]. intros f F. apply (bar_after rich); [apply row_in_rows|exact F|exact L]. }
  destruct (t_caption t) as [c|] eqn:Ec; cbn [opt_text].
  - rewrite <- app_assoc. apply caption_run; [exact H4| |apply text_in_rows|apply Q, P; left; reflexivity].
    intros x Hx. unfold rows_of_a. cbn [au_trans]. do 2 (apply in_or_app; right). apply in_or_app. left. exact Hx.
  - cbn [app]. apply Q. apply (first_piece rich t p ps); auto.
Qed.
(** ** Bars *)
Lemma piece_bars q p : Suf piece_a q p -> In q [240; 246]%nat -> no_match (RSeq (RCls bar) (RCls ws_cls)) (p ++ [124]).
Proof.
  intros H Hq. pose proof row_bars as B. apply andb_prop in B as [B1 B2].
  assert (A : accepts (bars_a q) (p ++ [124])).
  { unfold accepts. apply (tail_ok piece_a q p H); [intros x Hx; unfold bars_a; cbn [au_trans]; rewrite app_assoc; apply in_or_app; left; exact Hx|]. intros f F. apply (bar_after true); [intros x Hx; apply in_or_app; left; exact Hx|exact F|]. apply SufNil. left. reflexivity. }
  destruct Hq as [<-|[<-|[]]]; [exact (never_ok _ _ _ A B1)|exact (never_ok _ _ _ A B2)].
Qed.
Lemma captioned_bars c p : accepts cell_text c -> Suf piece_a 240 p -> no_match (RSeq (RCls bar) (RCls ws_cls)) (((u "|=. " ++ c ++ [10]) ++ p) ++ [124]).
Proof.
  intros Hc H. pose proof row_bars as B. apply andb_prop in B as [_ B2]. eapply never_ok; [|exact B2]. unfold accepts. rewrite <- app_assoc. apply caption_run; [exact Hc|..].
  - intros x Hx. unfold bars_a. cbn [au_trans]. do 2 (apply in_or_app; right). exact Hx.
  - intros x Hx. apply in_or_app. left. apply in_or_app. left. exact Hx.
  - apply (tail_ok piece_a 240 p H); [intros x Hx; unfold bars_a; cbn [au_trans]; rewrite app_assoc; apply in_or_app; left; exact Hx|]. intros f F. apply (bar_after true); [intros x Hx; apply in_or_app; left; exact Hx|exact F|]. apply SufNil. left. reflexivity.
Qed.
(** ** The result *)
Lemma table_trans : incl (au_trans cell_text) (au_trans table_a) /\ incl (starts_at 356) (au_trans table_a).
Proof. split; intros x Hx; unfold table_a; cbn [au_trans]; apply in_or_app; left; apply in_or_app; [left|right]; exact Hx. Qed.
Lemma result_digits n w : Suf table_a 602 w -> Suf table_a 602 (dec n ++ w).
Proof. intros Hw. apply digits_run; [|apply dec_digit|exact Hw]. apply (digit_cases (fun d => mem 602 (walk table_a [602%nat] [d]))). vm_compute. reflexivity. Qed.
Lemma style_shape c : match cell_style c with [] => True | l => mem 357 (walk table_a [357%nat] (u " style=""" ++ join (u "; ") l ++ u ";""")) = true end.
Proof.
  destruct c as [h m n v a t]. unfold cell_style. cbn [c_head c_col c_row c_valign c_halign].
  assert (A : match match a with Some a => [u "text-align:" ++ SpecAtts.halign_name a] | None => [] end with [] => True | l => mem 357 (walk table_a [357%nat] (u " style=""" ++ join (u "; ") l ++ u ";""")) = true end) by (destruct a as [[]|]; [vm_compute; reflexivity..|exact I]).
  destruct h; [exact A|]. destruct m; [exact A|]. destruct n; [exact A|]. destruct v as [v|]; [|exact A]. destruct v, a as [[]|]; vm_compute; reflexivity.
Qed.
Lemma atts_shape c rest : Suf table_a 357 rest -> Suf table_a 357 (cell_atts c ++ rest).
Proof.
  intros H. unfold cell_atts. rewrite <- !app_assoc.
  assert (S3 : Suf table_a 357 (match cell_style c with [] => [] | l => u " style=""" ++ join (u "; ") l ++ u ";""" end ++ rest)).
  { pose proof (style_shape c) as E. destruct (cell_style c) as [|x l]; [exact H|]. apply (walk_to table_a 357 357); [exact E|exact H]. }
  assert (N : forall name n w, mem 602 (walk table_a [357%nat] name) = true -> Suf table_a 357 w -> Suf table_a 357 ((name ++ dec n ++ u """") ++ w)).
  { intros name n w E Hw. rewrite <- !app_assoc. apply (walk_to table_a 357 602); [exact E|]. apply result_digits. apply (walk_to table_a 602 357); [vm_compute; reflexivity|exact Hw]. }
  assert (S2 : Suf table_a 357 (match c_row c with Some n => u " rowspan=""" ++ dec n ++ u """" | None => [] end ++ match cell_style c with [] => [] | l => u " style=""" ++ join (u "; ") l ++ u ";""" end ++ rest)).
  { destruct (c_row c); [apply N; [vm_compute; reflexivity|exact S3]|exact S3]. }
  destruct (c_col c); [apply N; [vm_compute; reflexivity|exact S2]|exact S2].
Qed.
Lemma cell_shape b c rest : proper_cell b c -> Suf table_a 365 rest -> forall q, In q [345; 365]%nat -> Suf table_a q (cell_html c ++ rest).
Proof.
  intros [Hp _] Hr q Hq. destruct table_trans as [Ht1 Ht2].
  assert (W1 : forall q, In q [345; 365]%nat -> mem 355 (walk table_a [q] [10; 9; 9; 9]) = true) by (intros q0 [<-|[<-|[]]]; vm_compute; reflexivity).
  assert (W2 : forallb (fun f => mem 365 (walk table_a [f] (u "</td>")) && mem 365 (walk table_a [f] (u "</th>"))) (356%nat :: au_final cell_text) = true) by (vm_compute; reflexivity). rewrite forallb_forall in W2.
  unfold cell_html. rewrite <- app_assoc. apply (walk_to table_a q 355); [apply W1; exact Hq|]. destruct (c_head c); rewrite <- !app_assoc.
  - apply (walk_to table_a 355 357); [vm_compute; reflexivity|]. apply atts_shape. apply (walk_to table_a 357 356); [vm_compute; reflexivity|]. apply text_run; [exact Hp|exact Ht1|exact Ht2|]. intros f Hf. apply W2, andb_prop in Hf. exact (walk_to table_a f 365 _ rest (proj2 Hf) Hr).
  - apply (walk_to table_a 355 357); [vm_compute; reflexivity|]. apply atts_shape. apply (walk_to table_a 357 356); [vm_compute; reflexivity|]. apply text_run; [exact Hp|exact Ht1|exact Ht2|]. intros f Hf. apply W2, andb_prop in Hf. exact (walk_to table_a f 365 _ rest (proj1 Hf) Hr).
Qed.
Lemma row_shape b r rest : proper_row b r -> Suf table_a 415 rest -> forall q, In q [320; 415]%nat -> Suf table_a q (row_html r ++ rest).
Proof.
  intros [Hn Hp] Hr q Hq. unfold row_html. rewrite <- !app_assoc. assert (W1 : forall q, In q [320; 415]%nat -> mem 345 (walk table_a [q] (u "
		<tr>")) = true) by (intros q0 [<-|[<-|[]]]; vm_compute; reflexivity). apply (walk_to table_a q 345); [apply W1; exact Hq|].
  assert (G : forall q, In q [345; 365]%nat -> Suf table_a q (flat_map cell_html r ++ u "
		</tr>" ++ rest)); [|apply G; left; reflexivity].
  clear q Hq. induction r as [|c r IH]; [congruence|]. intros q Hq. cbn [flat_map]. rewrite <- app_assoc. apply (cell_shape b); [apply Hp; left; reflexivity| |exact Hq].
  destruct r as [|c2 r]; [cbn [flat_map app]; apply (walk_to table_a 365 415); [vm_compute; reflexivity|exact Hr]|]. apply IH; [discriminate|intros c3 H3; apply Hp; right; exact H3|right; left; reflexivity].
Qed.
Lemma rows_shape b rs rest : (forall r, In r rs -> proper_row b r) -> (forall q, In q [320; 415]%nat -> Suf table_a q rest) -> forall q, In q [320; 415]%nat -> Suf table_a q (flat_map row_html rs ++ rest).
Proof.
  intros Hp Hr. induction rs as [|r rs IH]; intros q Hq; [apply Hr; exact Hq|]. cbn [flat_map]. rewrite <- app_assoc. apply (row_shape b); [apply Hp; left; reflexivity| |exact Hq]. apply IH; [intros r2 H2; apply Hp; right; exact H2|right; left; reflexivity].
Qed.
Lemma groups_shape b gs rest : (forall r, In r (flat_map snd gs) -> proper_row b r) -> (forall q, In q [320; 415]%nat -> Suf table_a q rest) -> forall q, In q [320; 415]%nat -> Suf table_a q (flat_map group_html gs ++ rest).
Proof.
  intros Hp Hr. induction gs as [|[g rs] gs IH]; intros q Hq; [apply Hr; exact Hq|]. cbn [flat_map]. unfold group_html at 1. cbn [fst snd]. rewrite <- !app_assoc. rewrite (app_assoc _ (group_name g)), (app_assoc _ (u ">")).
  apply (walk_to table_a q 320); [destruct g; destruct Hq as [<-|[<-|[]]]; vm_compute; reflexivity|]. apply (rows_shape b); [intros r Hi; apply Hp; cbn [flat_map snd]; apply in_or_app; left; exact Hi| |left; reflexivity].
  intros q2 Hq2. rewrite (app_assoc _ (group_name g)), (app_assoc _ (u ">")). apply (walk_to table_a q2 415); [destruct g; destruct Hq2 as [<-|[<-|[]]]; vm_compute; reflexivity|]. apply IH; [intros r Hi; apply Hp; cbn [flat_map]; apply in_or_app; right; exact Hi|right; left; reflexivity].
Qed.
Lemma table_rest b t : proper_table b t -> Suf table_a 320 (caption_html t ++ flat_map group_html (t_groups t) ++ flat_map row_html (t_loose t) ++ u "
	</table>").
Proof.
  intros (H1 & H2 & H3 & H4). assert (G : forall q, In q [320; 415]%nat -> Suf table_a q (flat_map group_html (t_groups t) ++ flat_map row_html (t_loose t) ++ u "
	</table>")).
  { apply (groups_shape b); [intros r Hr; apply H2; unfold all_rows; apply in_or_app; right; exact Hr|]. apply (rows_shape b); [intros r Hr; apply H2; unfold all_rows; apply in_or_app; left; exact Hr|].
    intros q Hq. rewrite <- (app_nil_r (u "
	</table>")). apply (walk_to table_a q 445); [destruct Hq as [<-|[<-|[]]]; vm_compute; reflexivity|apply SufNil; left; reflexivity]. }
  unfold caption_html. destruct (t_caption t) as [c|]; [|apply G; left; reflexivity]. rewrite <- !app_assoc. destruct table_trans as [Ht1 Ht2].
  assert (W2 : forallb (fun f => mem 320 (walk table_a [f] (u "</caption>
"))) (356%nat :: au_final cell_text) = true) by (vm_compute; reflexivity). rewrite forallb_forall in W2.
  apply (walk_to table_a 320 356); [vm_compute; reflexivity|]. apply text_run; [right; exact H4|exact Ht1|exact Ht2|]. intros f Hf. apply (walk_to table_a f 320); [apply W2; exact Hf|]. apply G. left. reflexivity.
Qed.
Lemma table_shape b t : proper_table b t -> accepts table_a (table_html t).
Proof. intros H. unfold accepts, table_html. apply (walk_to table_a 300 320); [vm_compute; reflexivity|]. apply (table_rest b); auto. Qed.
