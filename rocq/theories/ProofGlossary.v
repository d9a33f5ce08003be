(** Lists of terms and their meanings. *)
From Verif Require Import Str Unicode Regex RegexParse RegexSnips Lib ModelBase ModelHtml ModelAttrs ModelInline ModelParser ProofDoc SpecGlossary.
(** The item that the code reads from the line of an entry. *)
Definition item_of (e : entry) : list_item := mk_li [] (words e) (entry_mark e) [].
Section Glossary.
Variable T : textile.
Definition after_term : list (str * N) := [(u ";", 1)].
Definition after_both : list (str * N) := [(u ";", 1); (u ":", 2)].
Definition lists_ok (p : entry) (L : list (str * N)) : Prop := L = after_both \/ (L = after_term /\ exists w, p = Term w).
Definition tail_html (last : bool) : str := if last then nl ++ u "</dl>" else [].
Definition open_lists (p : option entry) (e : entry) (L : list (str * N)) : list (str * N) :=
  match p with
  | Some p => if contains_char 59 (entry_mark p) && contains_char 58 (entry_mark e) then im_insert (entry_mark e) 2 L else L
  | None => L
  end.
Definition tag_of (e : entry) : str := match e with Term _ => u "dt" | Meaning _ => u "dd" end.
(** The line of one item, without the attributes. *)
Lemma line_eq p e L next s : is_empty (trim (words e)) = false ->
  list_line T (option_map item_of p) next L (item_of e) s =
  (let lists := open_lists p e L in
   let known := has_key (entry_mark e) lists in
   let lists := if known then lists else im_insert (entry_mark e) 1 lists in
   let X := trim (words e) in
   let line := if known then tab ++ u "<" ++ tag_of e ++ u ">" ++ X else u "<dl>" ++ nl ++ tab ++ u "<" ++ tag_of e ++ u ">" ++ X in
   let line := if match next with Some l => Nat.leb l 1 | None => true end then line ++ u "</" ++ tag_of e ++ u ">" else line in
   Ret (filter (fun kv => negb (closes next (fst kv))) lists,
        line ++ flat_map (close_one [] (tag_of e)) (filter (fun kv => closes next (fst kv)) (rev lists))) s).
Proof.
  intros H. unfold list_line. cbv zeta.
  assert (li_atts (item_of e) = [] /\ li_tl (item_of e) = entry_mark e /\ li_content (item_of e) = words e) as (-> & -> & ->) by (split; [|split]; reflexivity).
  assert (li_level (item_of e) = 1%nat) as -> by (destruct e; reflexivity).
  assert (list_type (entry_mark e) = u "dl") as -> by (destruct e; vm_compute; reflexivity).
  assert (item_tag (entry_mark e) = tag_of e) as -> by (destruct e; vm_compute; reflexivity).
  assert (seqb (u "dl") (u "ol") = false) as -> by (vm_compute; reflexivity).
  rewrite H. unfold bind at 1. rewrite attrs_none. rewrite bind_ret.
  assert (attrs_to_string (ba_html_attrs ba_default) = []) as -> by (vm_compute; reflexivity).
  assert (repeat_str tab (1 - 1) = []) as -> by reflexivity.
  assert (match option_map item_of p with Some q => if contains_char 59 (li_tl q) && contains_char 58 (entry_mark e) then im_insert (entry_mark e) 2 L else L | None => L end = open_lists p e L) as -> by (destruct p; reflexivity).
  destruct (has_key (entry_mark e) (open_lists p e L)); cbn [negb andb app]; reflexivity.
Qed.
Lemma first_line w (last : bool) s : is_empty (trim w) = false ->
  list_line T None (if last then None else Some 1%nat) [] (item_of (Term w)) s =
  Ret (if last then [] else after_term, u "<dl>" ++ nl ++ tab ++ entry_html (Term w) ++ tail_html last) s.
Proof.
  intros H. rewrite (line_eq None (Term w) [] _ s H). cbv zeta. cbn [open_lists entry_mark words entry_html tag_of]. generalize (trim w) as X. intros X.
  change (has_key (u ";") []) with false. change (im_insert (u ";") 1 []) with after_term.
  destruct last; cbn [Nat.leb].
  - assert (filter (fun kv => closes None (fst kv)) (rev after_term) = after_term) as -> by (vm_compute; reflexivity).
    assert (filter (fun kv => negb (closes None (fst kv))) after_term = []) as -> by (vm_compute; reflexivity).
    assert (flat_map (close_one [] (u "dt")) after_term = tail_html true) as -> by (vm_compute; reflexivity). rewrite <- !app_assoc. reflexivity.
  - assert (filter (fun kv => closes (Some 1%nat) (fst kv)) (rev after_term) = []) as -> by (vm_compute; reflexivity).
    assert (filter (fun kv => negb (closes (Some 1%nat) (fst kv))) after_term = after_term) as -> by (vm_compute; reflexivity).
    cbn [flat_map]. rewrite <- !app_assoc. reflexivity.
Qed.
Lemma lists_next p e L : lists_ok p L -> lists_ok e (open_lists (Some p) e L) /\ has_key (entry_mark e) (open_lists (Some p) e L) = true.
Proof.
  unfold lists_ok. intros [->|[-> [w ->]]].
  - assert (open_lists (Some p) e after_both = after_both) as -> by (destruct p, e; vm_compute; reflexivity). split; [auto|]. destruct e; vm_compute; reflexivity.
  - destruct e as [w'|w'].
    + assert (open_lists (Some (Term w)) (Term w') after_term = after_term) as -> by (vm_compute; reflexivity). split; [right; eauto|vm_compute; reflexivity].
    + assert (open_lists (Some (Term w)) (Meaning w') after_term = after_both) as -> by (vm_compute; reflexivity). split; [auto|vm_compute; reflexivity].
Qed.
Lemma closing_last e L t : lists_ok e L -> flat_map (close_one [] t) (filter (fun kv => closes None (fst kv)) (rev L)) = tail_html true.
Proof.
  intros H. assert (L = after_both \/ L = after_term) as [->| ->] by (destruct H as [H|[H _]]; auto);
  [assert (filter (fun kv => closes None (fst kv)) (rev after_both) = rev after_both) as -> by (vm_compute; reflexivity)
  |assert (filter (fun kv => closes None (fst kv)) (rev after_term) = rev after_term) as -> by (vm_compute; reflexivity)]; vm_compute; reflexivity.
Qed.
Lemma kept L e : lists_ok e L -> filter (fun kv => closes (Some 1%nat) (fst kv)) (rev L) = [] /\ filter (fun kv => negb (closes (Some 1%nat) (fst kv))) L = L.
Proof. intros H. assert (L = after_both \/ L = after_term) as [->| ->] by (destruct H as [H|[H _]]; auto); split; vm_compute; reflexivity. Qed.
Lemma next_line p e L (last : bool) s : lists_ok p L -> is_empty (trim (words e)) = false ->
  exists L', list_line T (Some (item_of p)) (if last then None else Some 1%nat) L (item_of e) s = Ret (L', tab ++ entry_html e ++ tail_html last) s /\ (last = false -> lists_ok e L').
Proof.
  intros HL H. change (Some (item_of p)) with (option_map item_of (Some p)). rewrite (line_eq (Some p) e L _ s H). cbv zeta.
  destruct (lists_next p e L HL) as [HL' ->]. revert HL'. generalize (open_lists (Some p) e L) as L'. intros L' HL'.
  assert (forall X, (tab ++ u "<" ++ tag_of e ++ u ">" ++ X) ++ u "</" ++ tag_of e ++ u ">" = tab ++ match e with Term _ => u "<dt>" ++ X ++ u "</dt>" | Meaning _ => u "<dd>" ++ X ++ u "</dd>" end) as EX by (intros X; rewrite <- !app_assoc; destruct e; reflexivity).
  destruct last; cbn [Nat.leb].
  - eexists. split; [|discriminate]. rewrite EX, (closing_last e L' _ HL'), <- app_assoc. destruct e; reflexivity.
  - destruct (kept L' e HL') as [-> ->]. exists L'. split; [|auto]. rewrite EX. cbn [flat_map tail_html]. rewrite !app_nil_r. destruct e; reflexivity.
Qed.
Lemma join_cons2 (a b : str) l : join nl (a :: b :: l) = a ++ nl ++ join nl (b :: l).
Proof. reflexivity. Qed.
Lemma glossary_lines l : shown l -> forall p L s, lists_ok p L ->
  l <> [] -> exists lines, list_lines T (Some (item_of p)) L (map item_of l) s = Ret lines s /\ lines <> [] /\ join nl lines = join nl (map (fun e => tab ++ entry_html e) l) ++ nl ++ u "</dl>".
Proof.
  induction 1 as [|e l He Hl IH]; intros p L s HL Hn; [congruence|]. cbn [map list_lines]. destruct l as [|e' l].
  - destruct (next_line p e L true s HL He) as (L' & E & _). unfold bind at 1. cbn [map hd_error option_map]. rewrite E. exists [tab ++ entry_html e ++ tail_html true]. split; [reflexivity|]. split; [discriminate|]. cbn [join map tail_html]. rewrite <- app_assoc. reflexivity.
  - destruct (next_line p e L false s HL He) as (L' & E & HL'). cbn [map hd_error option_map]. change (li_level (item_of e')) with (List.length (entry_mark e')). assert (List.length (entry_mark e') = 1%nat) as -> by (destruct e'; reflexivity). unfold bind at 1. rewrite E. cbn [fst snd].
    destruct (IH e L' s (HL' eq_refl)) as (lines & E2 & Hne & J); [discriminate|]. unfold bind. cbn [map] in E2. rewrite E2. eexists. split; [reflexivity|]. split; [discriminate|].
    cbn [tail_html]. rewrite app_nil_r. destruct lines as [|x lines]; [congruence|]. change (join nl ((tab ++ entry_html e) :: x :: lines)) with ((tab ++ entry_html e) ++ nl ++ join nl (x :: lines)). rewrite J.
    cbn [map]. rewrite join_cons2, <- !app_assoc. reflexivity.
Qed.
Lemma join_lines l : forall e, join nl (map (fun e => tab ++ entry_html e) (e :: l)) = tab ++ entry_html e ++ flat_map (fun e => nl ++ tab ++ entry_html e) l.
Proof.
  induction l as [|e' l IH]; intros e; [cbn [map join flat_map]; rewrite app_nil_r; reflexivity|].
  specialize (IH e'). cbn [map] in IH |- *. rewrite join_cons2. unfold str in *. rewrite IH. cbn [flat_map]. rewrite <- !app_assoc. reflexivity.
Qed.
Lemma glossary w l s : shown (Term w :: l) -> exists lines, list_lines T None [] (map item_of (Term w :: l)) s = Ret lines s /\ join nl lines = glossary_html (Term w :: l).
Proof.
  intros H. inversion H as [|? ? Hw Hl]; subst. cbn [words] in Hw. change (map item_of (Term w :: l)) with (item_of (Term w) :: map item_of l). cbn [list_lines]. destruct l as [|e l].
  - cbn [map hd_error option_map]. unfold bind at 1. rewrite (first_line w true s Hw). eexists. split; [reflexivity|]. cbn [join fst snd]. unfold glossary_html, tail_html. cbn [flat_map]. rewrite <- ?app_assoc. reflexivity.
  - cbn [map hd_error option_map]. change (li_level (item_of e)) with (List.length (entry_mark e)). assert (List.length (entry_mark e) = 1%nat) as -> by (destruct e; reflexivity). unfold bind at 1. rewrite (first_line w false s Hw). cbn [fst snd].
    destruct (glossary_lines (e :: l) Hl (Term w) after_term s) as (lines & E & Hne & J); [right; split; [reflexivity|eauto]|discriminate|]. cbn [map] in E. unfold bind. rewrite E. eexists. split; [reflexivity|]. destruct lines as [|x lines]; [congruence|].
    cbn [tail_html]. rewrite app_nil_r. change (join nl ((u "<dl>" ++ nl ++ tab ++ entry_html (Term w)) :: x :: lines)) with ((u "<dl>" ++ nl ++ tab ++ entry_html (Term w)) ++ nl ++ join nl (x :: lines)). rewrite J, join_lines. unfold glossary_html. cbn [flat_map]. rewrite <- !app_assoc. reflexivity.
Qed.
End Glossary.
(** All lists. *)
Inductive phase := One | Meanings | Within | Shut.
Definition only_meanings : list (str * N) := [(u ":", 1)].
Definition two_lists : list (str * N) := [(u ":", 1); (u ";", 1)].
Definition shut_list : list (str * N) := [(u ":", 2); (u ";", 1)].
Definition in_phase (p : entry) (q : phase) (L : list (str * N)) : Prop :=
  match q with
  | One => lists_ok p L
  | Meanings => L = only_meanings /\ is_term p = false
  | Within => L = two_lists /\ is_term p = true
  | Shut => L = shut_list
  end.
Definition next_phase (q : phase) (e : entry) : phase :=
  match q, e with
  | Meanings, Term _ => Within
  | Within, Meaning _ => Shut
  | _, _ => q
  end.
Definition opening (q : phase) (e : entry) : str := match q, e with Meanings, Term _ => u "<dl>" ++ nl | _, _ => [] end.
Definition closing (q : phase) : str := match q with Within => nl ++ u "</dl>" ++ nl ++ u "</dl>" | _ => nl ++ u "</dl>" end.
Section Lists.
Variable T : textile.
Lemma line_shape e X : (tab ++ u "<" ++ tag_of e ++ u ">" ++ X) ++ u "</" ++ tag_of e ++ u ">" = tab ++ match e with Term _ => u "<dt>" ++ X ++ u "</dt>" | Meaning _ => u "<dd>" ++ X ++ u "</dd>" end.
Proof. rewrite <- !app_assoc. destruct e; reflexivity. Qed.
Lemma opened_shape e X : (u "<dl>" ++ nl ++ tab ++ u "<" ++ tag_of e ++ u ">" ++ X) ++ u "</" ++ tag_of e ++ u ">" = u "<dl>" ++ nl ++ tab ++ match e with Term _ => u "<dt>" ++ X ++ u "</dt>" | Meaning _ => u "<dd>" ++ X ++ u "</dd>" end.
Proof. rewrite <- !app_assoc. destruct e; reflexivity. Qed.
Lemma html_shape e : match e with Term _ => u "<dt>" ++ trim (words e) ++ u "</dt>" | Meaning _ => u "<dd>" ++ trim (words e) ++ u "</dd>" end = entry_html e.
Proof. destruct e; reflexivity. Qed.
Definition phase_lists (q : phase) (L : list (str * N)) : Prop :=
  match q with One => L = after_both \/ L = after_term | Meanings => L = only_meanings | Within => L = two_lists | Shut => L = shut_list end.
Lemma phase_of p q L : in_phase p q L -> phase_lists q L.
Proof. destruct q; cbn [in_phase phase_lists]; unfold lists_ok; tauto. Qed.
Lemma phase_end q L t : phase_lists q L -> flat_map (close_one [] t) (filter (fun kv => closes None (fst kv)) (rev L)) = closing q.
Proof.
  intros H. assert (filter (fun kv => closes None (fst kv)) (rev L) = rev L) as ->.
  { destruct q; cbn [phase_lists] in H; [destruct H as [H|H]|..]; subst L; vm_compute; reflexivity. }
  destruct q; cbn [phase_lists] in H; [destruct H as [H|H]|..]; subst L; vm_compute; reflexivity.
Qed.
Lemma phase_kept q L : phase_lists q L -> filter (fun kv => closes (Some 1%nat) (fst kv)) (rev L) = [] /\ filter (fun kv => negb (closes (Some 1%nat) (fst kv))) L = L.
Proof. intros H. destruct q; cbn [phase_lists] in H; [destruct H as [H|H]|..]; subst L; split; vm_compute; reflexivity. Qed.
Lemma phase_step p q e L : in_phase p q L -> exists L',
  (let K := open_lists (Some p) e L in if has_key (entry_mark e) K then K else im_insert (entry_mark e) 1 K) = L' /\ in_phase e (next_phase q e) L' /\
  has_key (entry_mark e) (open_lists (Some p) e L) = is_empty (opening q e).
Proof.
  intros H. destruct q; cbn [in_phase] in H.
  - destruct (lists_next p e L H) as [H1 H2]. cbv zeta. rewrite H2. eexists. split; [reflexivity|]. split; [destruct e; exact H1|destruct e; reflexivity].
  - destruct H as [-> Hp]. destruct p as [w|w]; [discriminate|]. destruct e as [w'|w']; (eexists; split; [vm_compute; reflexivity|]); (split; [split; reflexivity|vm_compute; reflexivity]).
  - destruct H as [-> Hp]. destruct p as [w|w]; [|discriminate]. destruct e as [w'|w']; (eexists; split; [vm_compute; reflexivity|]); (split; [try (split; reflexivity); reflexivity|vm_compute; reflexivity]).
  - subst L. destruct p as [w|w], e as [w'|w']; (eexists; split; [vm_compute; reflexivity|]); (split; [reflexivity|vm_compute; reflexivity]).
Qed.
Lemma any_line p q e L (last : bool) s : in_phase p q L -> is_empty (trim (words e)) = false ->
  exists L', list_line T (Some (item_of p)) (if last then None else Some 1%nat) L (item_of e) s =
    Ret (L', opening q e ++ tab ++ entry_html e ++ (if last then closing (next_phase q e) else [])) s /\ (last = false -> in_phase e (next_phase q e) L').
Proof.
  intros HL H. change (Some (item_of p)) with (option_map item_of (Some p)). rewrite (line_eq T (Some p) e L _ s H).
  destruct (phase_step p q e L HL) as (L' & EL & HL' & HK). cbv zeta in *. rewrite EL, HK.
  assert (forall b, (if match (if last then None else Some 1%nat) with Some l => Nat.leb l 1 | None => true end then b ++ u "</" ++ tag_of e ++ u ">" else b) = b ++ u "</" ++ tag_of e ++ u ">") as -> by (destruct last; reflexivity).
  assert ((if is_empty (opening q e) then tab ++ u "<" ++ tag_of e ++ u ">" ++ trim (words e) else u "<dl>" ++ nl ++ tab ++ u "<" ++ tag_of e ++ u ">" ++ trim (words e)) ++ u "</" ++ tag_of e ++ u ">" = opening q e ++ tab ++ entry_html e) as ->.
  { rewrite <- (html_shape e). assert (opening q e = [] \/ opening q e = u "<dl>" ++ nl) as [-> | ->] by (destruct q, e; auto).
    - change (is_empty []) with true. cbv iota. rewrite line_shape. reflexivity.
    - change (is_empty (u "<dl>" ++ nl)) with false. cbv iota. rewrite opened_shape, <- app_assoc. reflexivity. }
  destruct last.
  - eexists. split; [|discriminate]. rewrite (phase_end _ L' _ (phase_of _ _ _ HL')), <- !app_assoc. reflexivity.
  - destruct (phase_kept _ L' (phase_of _ _ _ HL')) as [-> ->]. exists L'. split; [|auto]. cbn [flat_map]. rewrite <- !app_assoc. reflexivity.
Qed.
Fixpoint rest_html (q : phase) (l : list entry) : str :=
  match l with
  | [] => closing q
  | e :: l' => nl ++ opening q e ++ tab ++ entry_html e ++ rest_html (next_phase q e) l'
  end.
Lemma any_lines l : shown l -> forall p q L s, in_phase p q L -> l <> [] ->
  exists lines, list_lines T (Some (item_of p)) L (map item_of l) s = Ret lines s /\ lines <> [] /\ nl ++ join nl lines = rest_html q l.
Proof.
  induction 1 as [|e l He Hl IH]; intros p q L s HL Hn; [congruence|]. cbn [map list_lines]. destruct l as [|e' l].
  - destruct (any_line p q e L true s HL He) as (L' & E & _). unfold bind at 1. cbn [map hd_error option_map]. rewrite E. eexists. split; [reflexivity|]. split; [discriminate|]. reflexivity.
  - destruct (any_line p q e L false s HL He) as (L' & E & HL'). cbn [map hd_error option_map]. change (li_level (item_of e')) with (List.length (entry_mark e')). assert (List.length (entry_mark e') = 1%nat) as -> by (destruct e'; reflexivity). unfold bind at 1. rewrite E. cbn [fst snd].
    destruct (IH e (next_phase q e) L' s (HL' eq_refl)) as (lines & E2 & Hne & J); [discriminate|]. unfold bind. cbn [map] in E2. rewrite E2. eexists. split; [reflexivity|]. split; [discriminate|].
    destruct lines as [|x lines]; [congruence|]. rewrite join_cons2, J. rewrite app_nil_r. change (rest_html q (e :: e' :: l)) with (nl ++ opening q e ++ tab ++ entry_html e ++ rest_html (next_phase q e) (e' :: l)). rewrite <- !app_assoc. reflexivity.
Qed.
Lemma first_meaning w (last : bool) s : is_empty (trim w) = false ->
  list_line T None (if last then None else Some 1%nat) [] (item_of (Meaning w)) s =
  Ret (if last then [] else only_meanings, u "<dl>" ++ nl ++ tab ++ entry_html (Meaning w) ++ (if last then closing Meanings else [])) s.
Proof.
  intros H. rewrite (line_eq T None (Meaning w) [] _ s H). cbv zeta. change (open_lists None (Meaning w) []) with (@nil (str * N)). cbn [entry_mark].
  change (has_key (u ":") []) with false. change (im_insert (u ":") 1 []) with only_meanings. cbv iota.
  assert (forall b, (if match (if last then None else Some 1%nat) with Some l => Nat.leb l 1 | None => true end then b ++ u "</" ++ tag_of (Meaning w) ++ u ">" else b) = b ++ u "</" ++ tag_of (Meaning w) ++ u ">") as -> by (destruct last; reflexivity).
  rewrite opened_shape. change (u "<dd>" ++ trim (words (Meaning w)) ++ u "</dd>") with (entry_html (Meaning w)). generalize (entry_html (Meaning w)) as Y. intros Y. destruct last.
  - rewrite (phase_end Meanings only_meanings _ eq_refl). assert (filter (fun kv => negb (closes None (fst kv))) only_meanings = []) as -> by (vm_compute; reflexivity). rewrite <- !app_assoc. reflexivity.
  - destruct (phase_kept Meanings only_meanings eq_refl) as [-> ->]. cbn [flat_map]. rewrite <- !app_assoc. reflexivity.
Qed.
Lemma meanings_first w l s : shown (Meaning w :: l) -> exists lines, list_lines T None [] (map item_of (Meaning w :: l)) s = Ret lines s /\
  join nl lines = u "<dl>" ++ nl ++ tab ++ entry_html (Meaning w) ++ rest_html Meanings l.
Proof.
  intros H. inversion H as [|? ? Hw Hl]; subst. cbn [words] in Hw. change (map item_of (Meaning w :: l)) with (item_of (Meaning w) :: map item_of l). cbn [list_lines]. destruct l as [|e l].
  - cbn [map hd_error option_map]. unfold bind at 1. rewrite (first_meaning w true s Hw). eexists. split; [reflexivity|]. reflexivity.
  - cbn [map hd_error option_map]. change (li_level (item_of e)) with (List.length (entry_mark e)). assert (List.length (entry_mark e) = 1%nat) as -> by (destruct e; reflexivity). unfold bind at 1. rewrite (first_meaning w false s Hw). cbn [fst snd].
    destruct (any_lines (e :: l) Hl (Meaning w) Meanings only_meanings s) as (lines & E & Hne & J); [split; reflexivity|discriminate|]. cbn [map] in E. unfold bind. rewrite E. eexists. split; [reflexivity|]. destruct lines as [|x lines]; [congruence|].
    rewrite join_cons2, J, app_nil_r, <- !app_assoc. reflexivity.
Qed.
End Lists.
Lemma rest_shut l : rest_html Shut l = entries l ++ nl ++ u "</dl>".
Proof. unfold entries. induction l as [|e l IH]; [reflexivity|]. cbn [rest_html flat_map]. change (opening Shut e) with (@nil N). change (next_phase Shut e) with Shut. rewrite IH, <- !app_assoc. reflexivity. Qed.
Lemma rest_within l : rest_html Within l = entries l ++ nl ++ u "</dl>" ++ (if forallb is_term l then nl ++ u "</dl>" else []).
Proof.
  unfold entries. induction l as [|[w|w] l IH]; [reflexivity|..].
  - cbn [rest_html flat_map forallb is_term andb next_phase]. change (opening Within (Term w)) with (@nil N). rewrite IH, <- !app_assoc. reflexivity.
  - cbn [rest_html flat_map forallb is_term andb next_phase]. change (opening Within (Meaning w)) with (@nil N). rewrite rest_shut. unfold entries. rewrite app_nil_r, <- !app_assoc. reflexivity.
Qed.
Lemma rest_meanings l : rest_html Meanings l =
  match leading l with
  | (ms, []) => entries ms ++ nl ++ u "</dl>"
  | (ms, rest) => entries ms ++ nl ++ u "<dl>" ++ entries rest ++ nl ++ u "</dl>" ++ (if forallb is_term rest then nl ++ u "</dl>" else [])
  end.
Proof.
  induction l as [|[w|w] l IH]; [reflexivity|..].
  - cbn [rest_html leading next_phase forallb is_term andb]. rewrite rest_within. change (opening Meanings (Term w)) with (u "<dl>" ++ nl). unfold entries. cbn [flat_map app]. rewrite <- !app_assoc. reflexivity.
  - cbn [rest_html leading next_phase]. change (opening Meanings (Meaning w)) with (@nil N). rewrite IH. destruct (leading l) as [ms [|r rest]]; cbn [fst snd]; unfold entries; cbn [flat_map]; rewrite <- !app_assoc; reflexivity.
Qed.
Lemma leading_all l : snd (leading l) = [] -> fst (leading l) = l.
Proof. induction l as [|[w|w] l IH]; cbn [leading fst snd]; intros H; [reflexivity|discriminate|]. rewrite IH; auto. Qed.
Lemma any_list T l s : l <> [] -> shown l -> exists lines, list_lines T None [] (map item_of l) s = Ret lines s /\ join nl lines = list_html l.
Proof.
  intros Hn H. destruct l as [|[w|w] l]; [congruence|..].
  - destruct (glossary T w l s H) as (lines & E & J). exists lines. split; [exact E|]. exact J.
  - destruct (meanings_first T w l s H) as (lines & E & J). exists lines. split; [exact E|]. rewrite J, rest_meanings. unfold list_html. cbn [leading]. pose proof (leading_all l) as A. destruct (leading l) as [ms [|r rest]]; cbn [fst snd] in *.
    + rewrite (A eq_refl). unfold glossary_html, entries. cbn [flat_map]. rewrite <- !app_assoc. reflexivity.
    + unfold entries. cbn [flat_map]. rewrite <- !app_assoc. reflexivity.
Qed.
Lemma glossary_open T s : exists l lines, l <> [] /\ shown l /\ list_lines T None [] (map item_of l) s = Ret lines s /\
  join nl lines = u "<dl>" ++ nl ++ tab ++ u "<dd>a</dd>" ++ nl ++ u "<dl>" ++ nl ++ tab ++ u "<dt>b</dt>" ++ nl ++ tab ++ u "<dd>c</dd>" ++ nl ++ u "</dl>".
Proof.
  assert (shown [Meaning (u "a"); Term (u "b"); Meaning (u "c")]) as H by (repeat constructor).
  destruct (any_list T [Meaning (u "a"); Term (u "b"); Meaning (u "c")] s ltac:(discriminate) H) as (lines & E & J).
  exists [Meaning (u "a"); Term (u "b"); Meaning (u "c")], lines. split; [discriminate|]. split; [exact H|]. split; [exact E|]. rewrite J. vm_compute. reflexivity.
Qed.
