(** Documents of signed blocks: the page. *)
From Verif Require Import Str Unicode Regex RegexParse RegexSnips RegexTheory RegexAuto RegexGroups Lib ModelBase ModelHtml ModelUrl
  ModelAttrs ModelInline ModelParser SpecRegex ProofRegex ProofCharref SpecParse ProofParse Logic ProofWalk ProofState SpecState ProofMemory ProofCache ProofLinks ProofDoc
  SpecPlain ProofPlain SpecNewlines ProofNewlines ProofParas ProofTags ProofSections ProofBlocks SpecDoc ProofDocument SpecAtts ProofItems SpecSigned ProofSigAtts ProofSigSheet ProofSigned ProofSignedDoc.
#[local] Arguments u : simpl never.

(** ** Lists of pieces *)
Definition trail (l : list str) : list str := flat_map (fun y => [[10; 10]; y]) l.
Lemma pieces_trail x l : section_pieces (x :: l) = x :: trail l.
Proof. revert x. induction l as [|y l IH]; intros x; [reflexivity|]. change (section_pieces (x :: y :: l)) with (x :: [10; 10] :: section_pieces (y :: l)). rewrite IH. reflexivity. Qed.
Lemma trail_app a b : trail (a ++ b) = trail a ++ trail b.
Proof. apply flat_map_app. Qed.
Lemma sections_trail x l : sections (x :: l) = x ++ flat_map (fun y => [10; 10] ++ y) l.
Proof. revert x. induction l as [|y l IH]; intros x; [rewrite app_nil_r; reflexivity|]. rewrite sections_cons by discriminate. rewrite IH. reflexivity. Qed.
Lemma foldM_app {A B} (f : B -> A -> M B) l1 l2 b s : foldM f b (l1 ++ l2) s = bind (foldM f b l1) (fun b' => foldM f b' l2) s.
Proof.
  revert b s. induction l1 as [|x l1 IH]; intros b s; cbn [foldM app]; [rewrite bind_ret; reflexivity|]. rewrite bind_assoc. apply bind_ext. intros b' s'. apply IH.
Qed.

Section Page.
Variables (W : world) (T : textile).
Hypothesis uid_simple : simple_uid (t_uid T).
Notation tok n := (fragment_token T n).
Notation br := (br_tag T).
Notation rr := (t_restricted T).
Let uid_ok : uid_plain (t_uid T) = true := uid_simple_plain _ uid_simple.
Let uid_new : uid_fresh (t_uid T) := uid_simple_fresh _ uid_simple.

Definition size (xs : list str) : N := N.of_nat (List.length xs).
Lemma puts_ref xs : forall s, ps_ref_index (puts T xs s) = ps_ref_index s + size xs.
Proof.
  induction xs as [|x xs IH]; intros s; [cbn; lia|]. unfold puts in *. cbn [fold_left]. rewrite IH. unfold put, size. cbn [ps_ref_index set_shelf set_ref_index List.length]. lia.
Qed.
Lemma puts_app xs ys s : puts T (xs ++ ys) s = puts T ys (puts T xs s).
Proof. apply fold_left_app. Qed.
Lemma size_app xs ys : size (xs ++ ys) = size xs + size ys.
Proof. unfold size. rewrite app_length. lia. Qed.
Fixpoint bodies (n : N) (g : signature) (ts : list str) : list str :=
  match ts with [] => [] | t :: rest => staged_in T n g t :: bodies (n + size (stored_in g t)) g rest end.
Definition around (g : signature) (l : list item) (b : str) : str := inner_open rr g l ++ b ++ inner_close g.
Definition staged_group (n : N) (g : signature) (l : list item) (ts : list str) : str :=
  outer_open rr g l ++ sections (map (around g l) (bodies n g ts)) ++ outer_close g.
Definition staged_part (n : N) (p : part) : list str :=
  match p with
  | Anonymous t => [staged_group n SigP [] [t]]
  | Signed g l t => [staged_group n g l [t]]
  | Extended g l t more => [staged_group n g l (t :: more)]
  | Comment _ => []
  end.
Definition stored_of (p : part) : list str :=
  match p with
  | Anonymous _ | Comment _ => []
  | Signed g _ t => stored_in g t
  | Extended g _ t more => flat_map (stored_in g) (t :: more)
  end.
Fixpoint staged_parts (n : N) (ps : list part) : list str :=
  match ps with [] => [] | p :: rest => staged_part n p ++ staged_parts (n + size (stored_of p)) rest end.
(** The parts as the parser sees them. *)
Definition uid_free (t : str) : Prop := contains (t_uid T) t = false.
Definition fit (p : part) : Prop :=
  match p with
  | Anonymous t => accepts paragraph t
  | Signed g l t => sig_ok T g l /\ closed l t /\ sig_text g t /\ uid_free t /\ allowed_sig T g
  | Extended g l t more => sig_ok T g l /\ closed l t /\ (forall x, In x (t :: more) -> sig_text g x /\ uid_free x) /\ (forall x, In x more -> more_ok g x) /\ allowed_sig T g
  | Comment t => code_text t /\ uid_free t /\ t_lite T = false
  end.

Lemma blank_any graf a s : block_step W T graf a [10; 10] s =
  Ret (mk_bl (bl_out a) (if bl_eat_ws a then bl_ws a else bl_ws a ++ [10; 10]) (bl_eat_ws a) (bl_ext a) (bl_tag a) (bl_atts a) (bl_cite a) (bl_closing a) (bl_eat a)) s.
Proof. reflexivity. Qed.

Definition open_at (g : signature) (l : list item) (a : block_acc) : Prop :=
  bl_out a <> [] /\ bl_ws a = [] /\ bl_eat_ws a = false /\ bl_ext a = [46] /\ bl_tag a = sig_name g /\ bl_atts a = items_text l /\ bl_cite a = None /\ bl_closing a = outer_close g.
Lemma more_steps fuel n g l : (0 < fuel)%nat -> sig_ok T g l -> forall ts a s,
  (forall x, In x ts -> sig_text g x /\ more_ok g x) -> open_at g l a -> @cache_ok (own T) (ps_cache s) -> ps_borrowed s = false ->
  exists a' c, @cache_ok (own T) c /\ foldM (block_step W T (graf_n W T fuel (S n))) a (trail ts) s = Ret a' (puts T (flat_map (stored_in g) ts) (set_cache c s)) /\ open_at g l a' /\
    List.concat (rev (bl_out a')) = List.concat (rev (bl_out a)) ++ flat_map (fun y => [10; 10] ++ y) (map (around g l) (bodies (ps_ref_index s) g ts)).
Proof.
  intros Hf Hg. induction ts as [|t ts IH]; intros a s Ht Ha Hc Hn.
  - exists a, (ps_cache s). split; auto. split; [destruct s; reflexivity|]. split; auto. rewrite app_nil_r. reflexivity.
  - destruct Ha as (A1 & A2 & A3 & A4 & A5 & A6 & A7 & A8). destruct (Ht t (or_introl eq_refl)) as [Ht1 Ht2].
    set (a1 := mk_bl (bl_out a) [10; 10] false (bl_ext a) (bl_tag a) (bl_atts a) (bl_cite a) (bl_closing a) (bl_eat a)).
    destruct (more_step W T uid_simple fuel n g l t a1 s Hf Hg Ht1 Ht2 A4 A1 A5 A6 A7 Hc Hn) as (a2 & c2 & Hc2 & E2 & O2 & B).
    set (s2 := puts T (stored_in g t) (set_cache c2 s)) in *. destruct (puts_own T (stored_in g t) (set_cache c2 s)) as (P1 & P2 & _ & _). fold s2 in P1, P2.
    destruct (IH a2 s2) as (a3 & c3 & Hc3 & E3 & O3 & C3); auto.
    { intros x Hx. apply Ht. right. auto. } { rewrite P1. exact Hc2. } { rewrite P2. exact Hn. }
    exists a3, c3. split; auto. split; [|split; auto].
    + change (trail (t :: ts)) with ([10; 10] :: t :: trail ts). cbn [foldM]. unfold bind at 1. rewrite blank_any, A2, A3. cbn [app]. fold a1. unfold bind at 1. rewrite E2. fold s2. rewrite E3. f_equal.
      cbn [flat_map]. rewrite puts_app. unfold s2. f_equal. destruct (puts_own T (stored_in g t) s) as (_ & _ & _ & Q). rewrite !Q. reflexivity.
    + rewrite C3, O2. cbn [a1 bl_out bl_ws]. unfold a1. cbn [bl_out bl_ws bodies map flat_map]. unfold s2. rewrite puts_ref. cbn [ps_ref_index set_cache]. unfold around at 2. rewrite <- !app_assoc. reflexivity.
Qed.
Lemma total_open g l a : open_at g l a -> total a = List.concat (rev (bl_out a)) ++ outer_close g.
Proof. intros (A1 & A2 & A3 & A4 & A5 & A6 & A7 & A8). unfold total. rewrite A4, A8. reflexivity. Qed.
Lemma part_step fuel n p a s : (0 < fuel)%nat -> fit p -> good a -> match p with Anonymous _ => bl_ext a = [] | _ => True end ->
  @cache_ok (own T) (ps_cache s) -> ps_borrowed s = false ->
  exists a' c, @cache_ok (own T) c /\ foldM (block_step W T (graf_n W T fuel (S n))) a (section_pieces (pieces p)) s = Ret a' (puts T (stored_of p) (set_cache c s)) /\ good a' /\
    total a' = total a ++ flat_map (fun h => bl_ws a ++ h) (staged_part (ps_ref_index s) p) /\
    match p with Comment _ => bl_ws a' = bl_ws a /\ bl_eat_ws a' = true | _ => bl_ws a' = [] /\ bl_eat_ws a' = false end /\
    match p with Extended _ _ _ _ => True | _ => bl_ext a' = [] end.
Proof.
  intros Hf Hp Ha He Hc Hn. destruct p as [t|g l t|g l t more|t]; cbn [fit pieces staged_part stored_of] in *.
  - destruct (plain_step W T uid_simple fuel n t a s Hf Hp He Hc Hn) as (a' & c & Hc' & E & O & B1 & B2 & B3). exists a', c. split; auto. cbn [section_pieces foldM]. split; [unfold bind; rewrite E; reflexivity|].
    split; [intros F; congruence|]. split; [|auto]. unfold total. rewrite B3, O, He. cbn [is_empty flat_map]. rewrite !app_nil_r. unfold staged_group. cbn [bodies map sections outer_open outer_close]. rewrite app_nil_r. reflexivity.
  - destruct Hp as (Hg & Hcl & Ht & _ & Hl). destruct (signed_step W T uid_simple fuel n false g l t a s Hf Hg Hcl Ht Hl Ha Hc Hn) as (a' & c & Hc' & E & O & B1 & B2 & B3 & B4 & _).
    exists a', c. split; auto. cbn [section_pieces foldM]. change (sig_name g ++ items_text l ++ u ". " ++ t) with (starting false g l t). split; [unfold bind; rewrite E; reflexivity|].
    change (dots false) with (@nil N) in B4. split; [intros F; congruence|]. split; [|auto]. unfold total at 1. rewrite B4, O. cbn [is_empty flat_map]. rewrite !app_nil_r. unfold staged_group, around. cbn [bodies map sections]. rewrite <- !app_assoc. reflexivity.
  - destruct Hp as (Hg & Hcl & Ht & Hm & Hl). destruct (Ht t (or_introl eq_refl)) as [Ht1 _].
    destruct (signed_step W T uid_simple fuel n true g l t a s Hf Hg Hcl Ht1 Hl Ha Hc Hn) as (a1 & c1 & Hc1 & E1 & O1 & B).
    set (s1 := puts T (stored_in g t) (set_cache c1 s)) in *. destruct (puts_own T (stored_in g t) (set_cache c1 s)) as (P1 & P2 & _ & _). fold s1 in P1, P2.
    destruct (more_steps fuel n g l Hf Hg more a1 s1) as (a2 & c2 & Hc2 & E2 & O2 & C2); auto.
    { intros x Hx. split; [apply Ht; right; auto|auto]. } { rewrite P1. exact Hc1. } { rewrite P2. exact Hn. }
    exists a2, c2. split; auto. change (sig_name g ++ items_text l ++ u ".. " ++ t) with (starting true g l t). rewrite pieces_trail. cbn [foldM]. split.
    { unfold bind. rewrite E1. fold s1. rewrite E2. f_equal. cbn [flat_map]. rewrite puts_app. unfold s1. f_equal. destruct (puts_own T (stored_in g t) s) as (_ & _ & _ & Q). rewrite !Q. reflexivity. }
    split; [intros _; apply O2|]. split; [|split; [split; apply O2|exact I]]. rewrite (total_open g l a2 O2), C2, O1. cbn [flat_map]. rewrite !app_nil_r. unfold staged_group. cbn [bodies map]. rewrite sections_trail.
    unfold s1. rewrite puts_ref. cbn [ps_ref_index set_cache]. unfold around at 2. rewrite <- !app_assoc. reflexivity.
  - destruct Hp as (_ & _ & Hl). eexists _, (ps_cache s). split; [exact Hc|]. cbn [section_pieces foldM]. rewrite (bind_eq _ _ _ _ (comment_step W T fuel n t a s Hl Ha)), bind_ret.
    split; [destruct s; reflexivity|]. split; [intros F; destruct F; reflexivity|]. cbn [bl_ws bl_eat_ws bl_ext flat_map]. split; [|auto].
    unfold total at 1. cbn [bl_out bl_ext is_empty]. rewrite !app_nil_r. apply closed_total. exact Ha.
Qed.
Definition joined (w : str) (hs : list str) : str := match hs with [] => [] | h :: rest => w ++ sections (h :: rest) end.
Definition follows (a : block_acc) (ps : list part) : Prop := match ps with Anonymous _ :: _ => bl_ext a = [] | _ => True end.
Lemma pieces_some p : exists x l, pieces p = x :: l.
Proof. destruct p; eexists _, _; reflexivity. Qed.
Lemma parts_fold fuel n : (0 < fuel)%nat -> forall ps a s, (forall p, In p ps -> fit p) -> separate ps -> good a -> follows a ps ->
  @cache_ok (own T) (ps_cache s) -> ps_borrowed s = false -> ps <> [] ->
  exists a' c, @cache_ok (own T) c /\ foldM (block_step W T (graf_n W T fuel (S n))) a (section_pieces (flat_map pieces ps)) s = Ret a' (puts T (flat_map stored_of ps) (set_cache c s)) /\ good a' /\
    total a' = total a ++ joined (bl_ws a) (staged_parts (ps_ref_index s) ps).
Proof.
  intros Hf. induction ps as [|p ps IH]; intros a s Hp Hs Ha Hfo Hc Hn Hne; [congruence|].
  destruct (part_step fuel n p a s Hf (Hp p (or_introl eq_refl)) Ha) as (a1 & c1 & Hc1 & E1 & G1 & O1 & W1 & X1); auto.
  destruct ps as [|p' ps].
  - exists a1, c1. split; auto. cbn [flat_map staged_parts]. rewrite !app_nil_r. split; auto. split; auto. rewrite O1. f_equal. destruct p; cbn [staged_part flat_map joined sections]; rewrite ?app_nil_r; reflexivity.
  - set (s1 := puts T (stored_of p) (set_cache c1 s)) in *. destruct (puts_own T (stored_of p) (set_cache c1 s)) as (P1 & P2 & _ & _). fold s1 in P1, P2.
    set (a2 := mk_bl (bl_out a1) (if bl_eat_ws a1 then bl_ws a1 else bl_ws a1 ++ [10; 10]) (bl_eat_ws a1) (bl_ext a1) (bl_tag a1) (bl_atts a1) (bl_cite a1) (bl_closing a1) (bl_eat a1)).
    destruct (IH a2 s1) as (a3 & c3 & Hc3 & E3 & G3 & O3).
    { intros; apply Hp; right; auto. } { destruct p, p'; cbn [separate] in *; tauto. } { exact G1. } { destruct p'; cbn [follows]; auto. destruct p; cbn [separate] in Hs; auto; contradiction. }
    { rewrite P1; auto. } { rewrite P2; auto. } { discriminate. }
    exists a3, c3. split; auto. split; [|split; auto].
    + assert (section_pieces (flat_map pieces (p :: p' :: ps)) = section_pieces (pieces p) ++ [10; 10] :: section_pieces (flat_map pieces (p' :: ps))) as ->.
      { change (flat_map pieces (p :: p' :: ps)) with (pieces p ++ flat_map pieces (p' :: ps)). destruct (pieces_some p) as (x & l & ->).
        assert (exists y l', flat_map pieces (p' :: ps) = y :: l') as (y & l' & ->) by (cbn [flat_map]; destruct (pieces_some p') as (y & l' & ->); eexists _, _; reflexivity).
        cbn [app]. rewrite !pieces_trail, trail_app. reflexivity. }
      rewrite foldM_app. unfold bind at 1. rewrite E1. fold s1. cbn [foldM]. unfold bind at 1. rewrite blank_any. fold a2. rewrite E3. f_equal.
      change (flat_map stored_of (p :: p' :: ps)) with (stored_of p ++ flat_map stored_of (p' :: ps)). rewrite puts_app. unfold s1. f_equal. destruct (puts_own T (stored_of p) s) as (_ & _ & _ & Q). rewrite !Q. reflexivity.
    + rewrite O3. change (total a2) with (total a1). rewrite O1. unfold s1. rewrite puts_ref. cbn [ps_ref_index set_cache].
      change (staged_parts (ps_ref_index s) (p :: p' :: ps)) with (staged_part (ps_ref_index s) p ++ staged_parts (ps_ref_index s + size (stored_of p)) (p' :: ps)).
      generalize (staged_parts (ps_ref_index s + size (stored_of p)) (p' :: ps)). intros hs. rewrite <- app_assoc. f_equal. cbn [a2 bl_ws]. unfold a2. cbn [bl_ws].
      destruct p; destruct W1 as [W1 W2]; rewrite W1, W2; cbn [staged_part flat_map app joined]; rewrite ?app_nil_r; try reflexivity;
        (destruct hs as [|h hs]; cbn [joined]; [rewrite app_nil_r; reflexivity|]; rewrite (sections_trail _ (h :: hs)), sections_trail; cbn [flat_map]; rewrite <- !app_assoc; reflexivity).
Qed.
End Page.
