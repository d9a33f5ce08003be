(** The number of steps allowed to the loops does not matter. *)
From Coq Require Import List NArith ZArith Lia Bool.
From Verif Require Import Str Regex ModelBase ModelHtml ModelAttrs ModelInline ModelParser Logic.
Import ListNotations.

(** [m] does what [m'] does or does not return. *)
Definition upto {A} (m m' : M A) : Prop := forall s, m s = Diverge \/ m s = m' s.
Lemma upto_refl {A} (m : M A) : upto m m.
Proof. intros s. auto. Qed.
Lemma upto_diverge {A} (m : M A) : upto diverge m.
Proof. intros s. left. reflexivity. Qed.
Lemma upto_bind {A B} (m m' : M A) (k k' : A -> M B) : upto m m' -> (forall a, upto (k a) (k' a)) -> upto (bind m k) (bind m' k').
Proof.
  intros H K s. unfold bind. destruct (H s) as [E|E]; rewrite E; [auto|]. destruct (m' s) as [a s1|p|]; auto. apply K.
Qed.
Lemma upto_mapM {A B} (f f' : A -> M B) l : (forall a, upto (f a) (f' a)) -> upto (mapM f l) (mapM f' l).
Proof. intros H. induction l as [|a l IH]; [apply upto_refl|]. cbn [mapM]. apply upto_bind; auto. intros b. apply upto_bind; auto. intros; apply upto_refl. Qed.
Lemma upto_foldM {A B} (f f' : B -> A -> M B) l : (forall b a, upto (f b a) (f' b a)) -> forall b, upto (foldM f b l) (foldM f' b l).
Proof. intros H. induction l as [|a l IH]; intros b; [apply upto_refl|]. cbn [foldM]. apply upto_bind; auto. Qed.
Lemma upto_replace r (f f' : hit -> M str) t : (forall h, upto (f h) (f' h)) -> upto (replace_allM r f t) (replace_allM r f' t).
Proof.
  intros H. unfold replace_allM. apply upto_bind; [|intros; apply upto_refl]. apply upto_mapM. intros g. destruct g; cbn [replace_segM]; [apply upto_refl|apply H].
Qed.
Ltac mono :=
  match goal with
  | H : forall _, upto _ _ |- upto _ _ => apply H
  | |- upto ?m ?m => apply upto_refl
  | |- upto (bind _ _) (bind _ _) => apply upto_bind; [mono|intros; cbv beta; mono]
  | |- upto (replace_allM _ _ _) (replace_allM _ _ _) => apply upto_replace; intros; mono
  | |- upto (foldM _ _ _) (foldM _ _ _) => apply upto_foldM; intros; mono
  | |- upto (mapM _ _) (mapM _ _) => apply upto_mapM; intros; mono
  | |- upto (if ?b then _ else _) _ => destruct b; mono
  | |- upto (match ?x with _ => _ end) _ => destruct x; mono
  | |- upto (let x := ?v in _) _ => cbv zeta; mono
  | |- _ => idtac
  end.

(** ** Loops *)
Lemma mark_loop_more n : forall m q p parts z b, (n <= m)%nat -> upto (mark_loop n q p parts z b) (mark_loop m q p parts z b).
Proof.
  induction n as [|n IH]; intros m q p parts z b L; [apply upto_diverge|]. destruct m as [|m]; [lia|]. cbn [mark_loop]. 
  repeat match goal with |- upto (if ?b then _ else _) _ => destruct b | |- upto (match ?x with _ => _ end) _ => destruct x | |- upto (let x := ?v in _) _ => cbv zeta end;
    try apply upto_refl; apply IH; lia.
Qed.
Lemma links_more W T n m : (n <= m)%nat -> forall t, upto (links W T n t) (links W T m t).
Proof.
  intros L t. assert (forall s, upto (mark_slice T n s) (mark_slice T m s)) as H1.
  { intros s. unfold mark_slice. destruct (negb (contains_char 34 s)); [apply upto_refl|]. destruct (rev (split_char 34 s)); [apply upto_refl|].
    apply upto_bind; [apply mark_loop_more; auto|intros; apply upto_refl]. }
  assert (forall p s, upto (link_loop W T n p s) (link_loop W T m p s)) as H2.
  { revert m L H1. induction n as [|n IH]; intros m L _ p s; [apply upto_diverge|]. destruct m as [|m]; [lia|]. cbn [link_loop].
    destruct (contains _ s); [|apply upto_refl]. apply upto_bind; [apply upto_refl|]. intros s'. destruct (seqb s' s); [apply upto_refl|].
    apply IH; [lia|]. intros x. unfold mark_slice. destruct (negb (contains_char 34 x)); [apply upto_refl|]. destruct (rev (split_char 34 x)); [apply upto_refl|].
    apply upto_bind; [apply mark_loop_more; lia|intros; apply upto_refl]. }
  unfold links. apply upto_bind.
  - unfold mark_start_of_links. apply upto_bind; [apply upto_refl|]. intros sl. destruct sl as [|x [|y sl]]; try apply upto_refl.
    apply upto_bind; [apply upto_mapM; apply H1|intros; apply upto_refl].
  - intros t'. unfold replace_links. apply upto_bind; [apply upto_refl|]. intros _. apply upto_bind; [apply upto_refl|]. intros p. apply upto_bind; [apply H2|].
    intros; apply upto_refl.
Qed.
Lemma retrieve_more n m t : (n <= m)%nat -> upto (retrieve n t) (retrieve m t).
Proof.
  intros L. unfold retrieve. apply upto_bind; [apply upto_refl|]. intros s. generalize (ps_shelf s). intros shelf. clear s. revert m t L.
  induction n as [|n IH]; intros m t L; [apply upto_diverge|]. destruct m as [|m]; [lia|]. cbn [retrieve_loop]. destruct (seqb _ t); [apply upto_refl|]. apply IH. lia.
Qed.

(** ** Through the parser *)
Section Graf.
Context (W : world) (T : textile) (g g' : str -> M str) (H : forall t, upto (g t) (g' t)).
Lemma rc_more t : upto (redcloth_list T g t) (redcloth_list T g' t).
Proof.
  unfold redcloth_list. apply upto_replace. intros h. unfold f_rc_list. apply upto_bind; [apply upto_refl|]. intros ls. apply upto_bind; [|intros; apply upto_refl].
  apply upto_foldM. intros out line. unfold rc_line. mono.
Qed.
Lemma block_new_more a b c d : upto (block_new W T g a b c d) (block_new W T g' a b c d).
Proof.
  assert (forall h, upto (parse_note_defs T g h) (parse_note_defs T g' h)) as Hn by (intros h; unfold parse_note_defs; mono).
  unfold block_new. mono.
Qed.
Lemma cell_more c : upto (table_cell T g c) (table_cell T g' c).
Proof. unfold table_cell. pose proof rc_more as R. mono. Qed.
Lemma row_more first acc row : upto (table_row T g first acc row) (table_row T g' first acc row).
Proof. unfold table_row. pose proof cell_more as R. mono. Qed.
Lemma rows_more rows : forall first acc, upto (table_rows T g first acc rows) (table_rows T g' first acc rows).
Proof. induction rows as [|r rows IH]; intros first acc; [apply upto_refl|]. cbn [table_rows]. apply upto_bind; [apply row_more|intros; apply IH]. Qed.
Lemma table_more t : upto (table T g t) (table T g' t).
Proof.
  unfold table. destruct (captures _ _); [|apply upto_refl]. apply upto_bind; [apply upto_refl|]. intros rows. unfold process_table.
  apply upto_bind; [apply upto_refl|]. intros ba. apply upto_bind; [apply upto_refl|]. intros ps. apply upto_bind; [apply rows_more|intros; apply upto_refl].
Qed.
Lemma anonymous_more a b c d e f t : upto (anonymous_block W T g a b c d e f t) (anonymous_block W T g' a b c d e f t).
Proof. unfold anonymous_block. pose proof block_new_more as R. mono. apply R. Qed.
Lemma block_more t : upto (block W T g t) (block W T g' t).
Proof.
  unfold block. apply upto_bind; [apply upto_refl|]. intros ps. apply upto_bind; [|intros; apply upto_refl]. apply upto_foldM. intros a x. unfold block_step.
  destruct (is_empty (trim x)); [apply upto_refl|]. destruct (if is_empty (bl_ext a) then _ else _) as [[[tag atts] cite] eat].
  apply upto_bind.
  - destruct (captures _ x); cbv zeta; (apply upto_bind; [apply block_new_more || apply anonymous_more|intros; apply upto_refl]).
  - intros [[[[[[[[? ?] ?] ?] ?] ?] ?] ?] ?]. apply upto_refl.
Qed.
Lemma body_more n m t : (n <= m)%nat -> upto (graf_body W T n g t) (graf_body W T m g' t).
Proof.
  intros L. unfold graf_body. pose proof (links_more W T n m L) as R1. pose proof table_more as R2. pose proof rc_more as R3. cbv zeta.
  destruct (t_lite T), (t_noimage T); repeat (apply upto_bind; [solve [apply R1|apply R2|apply R3|apply upto_refl]|intros]); apply upto_refl.
Qed.
End Graf.
Lemma graf_more W T f f' : (f <= f')%nat -> forall n m t, (n <= m)%nat -> upto (graf_n W T f n t) (graf_n W T f' m t).
Proof.
  intros L. induction n as [|n IH]; intros m t Ln; [apply upto_diverge|]. destruct m as [|m]; [lia|]. cbn [graf_n]. apply body_more; auto. intros t'. apply IH. lia.
Qed.
Lemma parse_more W T n m t : (n <= m)%nat -> upto (parse_m W T n t) (parse_m W T m t).
Proof.
  intros L. unfold parse_m. destruct (is_empty _); [apply upto_refl|]. cbv zeta. apply upto_bind.
  - destruct (t_block_tags T); [|apply upto_refl]. apply upto_bind; [|intros; apply upto_refl]. apply block_more. intros t'. apply graf_more; auto.
  - intros t'. apply upto_bind; [apply retrieve_more; auto|intros; apply upto_refl].
Qed.
Lemma steps_irrelevant W T n m c t : (n <= m)%nat -> parse W T n c t <> Diverge -> parse W T m c t = parse W T n c t.
Proof. intros L H. unfold parse in *. destruct (parse_more W T n m t L (new_state c)) as [E|E]; congruence. Qed.
(** Two numbers of steps under which a call returns give the same. *)
Lemma steps_agree W T n m c t : parse W T n c t <> Diverge -> parse W T m c t <> Diverge -> parse W T n c t = parse W T m c t.
Proof. intros A B. destruct (Nat.le_ge_cases n m) as [L|L]; [symmetry|]; apply steps_irrelevant; auto. Qed.
(** A call that does not return with many steps does not return. *)
Lemma never_returns W T n0 c t : (forall n, (n0 <= n)%nat -> parse W T n c t = Diverge) -> forall n, parse W T n c t = Diverge.
Proof.
  intros H n. destruct (parse_more W T n (Nat.max n n0) t (Nat.le_max_l _ _) (new_state c)) as [E|E]; [exact E|]. unfold parse. rewrite E. apply H. apply Nat.le_max_r.
Qed.
