(** The attributes of signatures, decidably. *)
From Verif Require Import Str Unicode Regex ModelBase ModelAttrs SpecPlain SpecDoc SpecAtts SpecSigned ProofLinks ProofSigAtts.
#[local] Arguments u : simpl never.

Definition some {A} (l : list A) : bool := match l with [] => false | _ => true end.
Definition sig_itemb (r : bool) (x : item) : bool :=
  match x with
  | Style ds _ => match rev ds with d :: _ => some d | [] => false end && forallb (in_chars style_chars) ds
  | Lang l => some l && in_chars lang_chars l
  | ClassId c i => (some c || match i with Some _ => true | None => false end) && in_chars (name_chars ++ u " ") c && match i with Some s => in_chars (name_chars ++ u ":") s | None => true end
  | PadLeft n | PadRight n => Nat.ltb 0 n
  | HAlign a => negb r || match a with Center => true | _ => false end
  | _ => true
  end.
Lemma chars_sub cs ds t : forallb (fun c => existsb (N.eqb c) ds) cs = true -> in_chars cs t = true -> forall x, In x t -> In x ds.
Proof.
  intros H Ht x Hx. pose proof (in_chars_more cs ds t H Ht) as Q. unfold in_chars in Q. rewrite forallb_forall in Q. specialize (Q x Hx). apply existsb_exists in Q as (y & Hy & E). apply N.eqb_eq in E as ->. exact Hy.
Qed.
Lemma chars_out cs ds t : forallb (fun c => negb (existsb (N.eqb c) cs)) ds = true -> in_chars cs t = true -> without ds t.
Proof.
  intros H Ht c Hc F. rewrite forallb_forall in H. specialize (H c Hc). unfold in_chars in Ht. rewrite forallb_forall in Ht. rewrite (Ht c F) in H. discriminate.
Qed.
Lemma sig_itemb_ok r x : sig_itemb r x = true -> item_ok ElNone r x /\ sig_item r x.
Proof.
  destruct x as [ds k|l|c i|n|n|a|v| | | | ]; cbn [sig_itemb item_ok sig_item]; intros H; try (split; exact I).
  - apply andb_prop in H as [H1 H2]. rewrite forallb_forall in H2. destruct (rev ds) as [|d rs] eqn:Er; [discriminate|].
    assert (ds = rev rs ++ [d]) as E by (rewrite <- (rev_involutive ds), Er; reflexivity). split; [|exact H2]. split; [rewrite E; destruct (rev rs); discriminate|]. split; [exists (rev rs), d; split; [exact E|destruct d; discriminate]|].
    intros e He. specialize (H2 e He). split; [apply (chars_out style_chars); auto; vm_compute; reflexivity|]. split; [discriminate|]. intros _. apply (chars_out style_chars); auto; vm_compute; reflexivity.
  - apply andb_prop in H as [H1 H2]. split; [|exact H2]. split; [destruct l; discriminate|]. split; [apply (chars_out lang_chars); auto; vm_compute; reflexivity|discriminate].
  - apply andb_prop in H as [H H3]. apply andb_prop in H as [H1 H2]. split.
    + split; [destruct c; [right; destruct i; discriminate|left; discriminate]|]. split; [apply (chars_sub (name_chars ++ u " ")); auto; vm_compute; reflexivity|]. split; [|discriminate].
      intros s ->. apply (chars_sub (name_chars ++ u ":")); auto; vm_compute; reflexivity.
    + split; [exact H2|]. intros s ->. exact H3.
  - apply Nat.ltb_lt in H. split; [exact H|exact I].
  - apply Nat.ltb_lt in H. split; [exact H|exact I].
  - split; [exact I|]. intros ->. cbn in H. destruct a; congruence.
Qed.
Fixpoint kinds_apart (l : list nat) : bool := match l with [] => true | k :: r => negb (existsb (Nat.eqb k) r) && kinds_apart r end.
Lemma kinds_apart_ok l : kinds_apart l = true -> NoDup l.
Proof.
  induction l as [|k l IH]; intros H; [constructor|]. cbn in H. apply andb_prop in H as [H1 H2]. constructor; [|auto]. intros F. apply negb_true_iff in H1. assert (existsb (Nat.eqb k) l = true) by (apply existsb_exists; exists k; split; [exact F|apply Nat.eqb_refl]). congruence.
Qed.
Fixpoint pads_after (first has : bool) (l : list item) : bool :=
  match l with
  | [] => true
  | PadRight _ :: r => (first || has) && pads_after false has r
  | ClassId _ _ :: r => pads_after false true r
  | _ :: r => pads_after false has r
  end.
Fixpoint pads (l : list item) : bool := match l with [] => true | PadLeft _ :: r => pads_after true false r && pads r | _ :: r => pads r end.
Lemma pads_after_ok l : forall first has mid m b, pads_after first has l = true -> l = mid ++ PadRight m :: b -> (first = true /\ mid = []) \/ has = true \/ exists c i, In (ClassId c i) mid.
Proof.
  induction l as [|x l IH]; intros first has mid m b H E; [destruct mid; discriminate|]. destruct mid as [|y mid]; cbn [app] in E; injection E as -> E.
  - cbn in H. apply andb_prop in H as [H _]. destruct first; [left; auto|right; left; exact H].
  - assert (forall f h, pads_after f h l = true -> (f = true /\ mid = []) \/ h = true \/ exists c i, In (ClassId c i) mid) as Q by (intros f h Hf; eapply IH; eauto).
    destruct y; cbn [pads_after] in H; try (destruct (Q _ _ H) as [[F _]|[F|(c & j & F)]]; [discriminate|right; left; exact F|right; right; exists c, j; right; exact F]).
    + destruct (Q _ _ H) as [[F _]|[_|(c' & j & F)]]; [discriminate|right; right; eexists _, _; left; reflexivity|right; right; exists c', j; right; exact F].
    + apply andb_prop in H as [_ H]. destruct (Q _ _ H) as [[F _]|[F|(c & j & F)]]; [discriminate|right; left; exact F|right; right; exists c, j; right; exact F].
Qed.
Lemma pads_ok l : pads l = true -> forall a n mid m b, l = a ++ PadLeft n :: mid ++ PadRight m :: b -> mid = [] \/ exists c i, In (ClassId c i) mid.
Proof.
  induction l as [|x l IH]; intros H a n mid m b E; [destruct a; discriminate|]. destruct a as [|y a]; cbn [app] in E; injection E as -> E.
  - cbn in H. apply andb_prop in H as [H _]. destruct (pads_after_ok l true false mid m b H E) as [[_ F]|[F|F]]; [left; exact F|discriminate|right; exact F].
  - apply (IH (ltac:(destruct y; cbn in H; try exact H; apply andb_prop in H as [_ H]; exact H)) a n mid m b E).
Qed.
Fixpoint drop (p : item -> bool) (l : list item) : list item := match l with x :: r => if p x then drop p r else l | [] => [] end.
Lemma drop_split p l : exists a, l = a ++ drop p l /\ forallb p a = true.
Proof.
  induction l as [|x l (a & E & H)]; [exists []; auto|]. cbn [drop]. destruct (p x) eqn:Ex; [|exists []; auto]. exists (x :: a). cbn. rewrite Ex, H. rewrite E at 1. auto.
Qed.
Definition in_placeb (l : list item) : bool := forallb mark (drop described (drop mark l)).
Lemma in_placeb_ok l : in_placeb l = true -> in_place l.
Proof.
  intros H. destruct (drop_split mark l) as (a & E & Ha). destruct (drop_split described (drop mark l)) as (d & E' & Hd). exists a, d, (drop described (drop mark l)). rewrite <- E', <- E. auto.
Qed.
Fixpoint closing (l : list item) : bool :=
  match l with
  | [] => true
  | PadLeft _ :: r => existsb (fun x => existsb (N.eqb 41) (item_text x)) r && closing r
  | _ :: r => closing r
  end.
Definition closedb (l : list item) (t : str) : bool := closing l || negb (existsb (N.eqb 41) t).
Lemma in_41 t : existsb (N.eqb 41) t = true <-> In 41 t.
Proof. rewrite existsb_exists. split; [intros (x & Hx & E); apply N.eqb_eq in E as <-; exact Hx|intros H; exists 41; auto]. Qed.
Lemma closing_ok l : closing l = true -> forall a n b, l = a ++ PadLeft n :: b -> exists x, In x b /\ In 41 (item_text x).
Proof.
  induction l as [|y l IH]; intros H a n b E; [destruct a; discriminate|]. destruct a as [|z a]; cbn [app] in E; injection E as -> E.
  - subst l. cbn [closing] in H. apply andb_prop in H as [H _]. apply existsb_exists in H as (x & Hx & E). exists x. split; [exact Hx|apply in_41; exact E].
  - apply (IH (ltac:(destruct z; cbn [closing] in H; try exact H; apply andb_prop in H as [_ H]; exact H)) a n b E).
Qed.
Lemma closedb_ok l t : closedb l t = true -> closed l t.
Proof.
  intros H. apply orb_prop in H as [H|H]; [left; exact (closing_ok l H)|right]. intros F. apply in_41 in F. rewrite F in H. discriminate.
Qed.
Definition itemsb (r : bool) (l : list item) : bool := kinds_apart (map kind l) && forallb (sig_itemb r) l && pads (filter (kept r) l) && in_placeb l.
Lemma itemsb_ok T g l : match g with SigH n => 1 <= n <= 6 | _ => True end -> itemsb (t_restricted T) l = true -> token_free T (items_text l) -> sig_ok T g l.
Proof.
  intros Hg H Hf. unfold itemsb in H. apply andb_prop in H as [H H4]. apply andb_prop in H as [H H3]. apply andb_prop in H as [H1 H2]. rewrite forallb_forall in H2.
  split; [exact Hg|]. split; [split; [apply kinds_apart_ok; exact H1|split; [intros x Hx; apply (sig_itemb_ok _ x (H2 x Hx))|exact (pads_ok _ H3)]]|].
  split; [apply in_placeb_ok; exact H4|]. split; [intros x Hx; apply (sig_itemb_ok _ x (H2 x Hx))|exact Hf].
Qed.
Lemma free_dec T t : contains (t_uid T) t = false -> token_free T t.
Proof. intros H a b E. rewrite E, contains_mid in H. discriminate. Qed.
