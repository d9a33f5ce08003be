(** Prose stays prose under the typographic rules. *)
From Verif Require Import Str Unicode Regex RegexParse RegexSnips RegexTheory RegexAuto Lib ModelBase ModelHtml ModelInline ModelParser SpecPlain SpecNewlines ProofNewlines
  SpecGlyphRules ProofGlyphRules SpecGlyphText SpecProse.
#[local] Arguments u : simpl never.

(** ** Rewriting that puts references in the place of marks *)
Definition ref_char (c : N) : bool := among (u "#;amp0123456789") c.
Definition reference (s : str) : Prop := exists s', s = 38 :: s' /\ forallb ref_char s' = true.
Definition slim (H : option N -> str -> option (str * str)) : Prop := forall prev t o r, H prev t = Some (o, r) ->
  exists a k s z, t = a ++ k ++ z ++ r /\ k <> [] /\ o = a ++ s ++ z /\ reference s.
Ltac ref := eexists; split; [reflexivity|vm_compute; reflexivity].
Lemma opt_split p t w r : opt_char p t = (w, r) -> t = w ++ r.
Proof. destruct t as [|c t]; cbn [opt_char]; [injection 1 as <- <-; reflexivity|]. destruct (p c); injection 1 as <- <-; reflexivity. Qed.
Lemma first_some {A B} (f : A -> option B) l y : first_of f l = Some y -> exists x, In x l /\ f x = Some y.
Proof.
  induction l as [|x l IH]; [discriminate|]. cbn [first_of]. destruct (f x) as [z|] eqn:E; [injection 1 as <-; exists x; split; [left|]; auto|].
  intros H. destruct (IH H) as (x' & Hi & Hx). exists x'. split; [right|]; auto.
Qed.
Lemma rule_slim R : reference (r_symbol R) -> r_mark R <> [] -> slim (rule_at R).
Proof.
  intros Hs Hm prev t o r E. apply first_some in E as (x & Hx & E). apply leads_is in Hx. subst t.
  destruct (marks (r_mark R) (snd x)) as [[w t1]|] eqn:Em; [|discriminate]. destruct (trails (r_trail R) t1) as [[z t2]|] eqn:Et; [|discriminate].
  apply trails_is in Et. apply marks_is in Em as [Em Hl]. injection E as <- <-. exists (fst x), w, (r_symbol R), z. rewrite Em, Et.
  split; [reflexivity|]. split; [intros ->; destruct (r_mark R); [congruence|discriminate]|]. split; auto.
Qed.
Lemma en_dash_slim : slim (rule_at en_dash).
Proof.
  intros prev t o r E. apply first_some in E as (x & Hx & E). destruct Hx as [<-|[]]. cbn [snd fst app r_trail r_symbol r_mark en_dash trails] in E.
  destruct t as [|c1 [|c2 [|c3 t]]]; cbn [marks] in E; try (repeat (destruct (is _ _); try discriminate); discriminate).
  destruct (is 32 c1) eqn:E1; [|discriminate]. destruct (is 45 c2) eqn:E2; [|discriminate]. destruct (is 32 c3) eqn:E3; [|discriminate]. rewrite app_nil_r in E.
  apply N.eqb_eq in E1, E2, E3. subst. assert (o = u " &#8211; " /\ r = t) as [-> ->] by (split; congruence).
  exists [32], [45], (u "&#8211;"), [32]. split; [reflexivity|]. split; [discriminate|]. split; [reflexivity|ref].
Qed.
Lemma later_slim R : In R later_rules -> slim (rule_at R).
Proof.
  intros H. repeat (destruct H as [<-|H]); [..|destruct H]; try (apply rule_slim; [ref|discriminate]). apply en_dash_slim.
Qed.
Lemma apostrophe_slim : slim (rule_at apostrophe).
Proof. apply rule_slim; [ref|discriminate]. Qed.
Lemma times_slim : slim times_at.
Proof.
  intros prev t o r. unfold times_at. destruct (run ascii_digit t) as [n t1] eqn:E1. destruct (opt_char (among (u "])")) t1) as [a t2] eqn:E2.
  destruct (opt_char (among (u "'""")) t2) as [q t3] eqn:E3. destruct (opt_char (is 32) t3) as [s t4] eqn:E4. destruct t4 as [|x t5]; [discriminate|].
  destruct (_ && _ && _); [|discriminate]. destruct (opt_char (is 32) t5) as [s2 t6] eqn:E5. destruct (opt_char (among (u "[(")) t6) as [b t7] eqn:E6.
  destruct (number_ahead t7); [|discriminate]. apply run_split in E1 as (-> & _). apply opt_split in E2, E3, E4, E5, E6. subst. intros E.
  assert (o = (n ++ a ++ q ++ s) ++ u "&#215;" ++ s2 ++ b /\ r = t7) as [-> ->] by (split; congruence).
  exists (n ++ a ++ q ++ s), [x], (u "&#215;"), (s2 ++ b). split; [rewrite <- !app_assoc; reflexivity|]. split; [discriminate|]. split; [reflexivity|ref].
Qed.
Lemma year_slim : slim year_at.
Proof.
  intros prev t o r. unfold year_at. destruct t as [|c [|q t]]; try discriminate. destruct (run digit t) as [n t1] eqn:E1.
  destruct (_ && _ && _); [|discriminate]. apply run_split in E1 as (-> & _). intros E. apply first_some in E as (x & Hx & E).
  destruct (ends_word _ _); [|discriminate]. assert (o = c :: u "&#8217;" ++ fst x /\ r = snd x) as [-> ->] by (split; congruence).
  assert (n ++ t1 = fst x ++ snd x) as Ex.
  { apply in_app_or in Hx as [Hx|[<-|[]]]; [|reflexivity]. apply in_map_iff in Hx as (y & <- & Hy). cbn [fst snd]. rewrite <- app_assoc. f_equal.
    unfold take_one in Hy. destruct t1 as [|d t1]; [destruct Hy|]. destruct (letter d); [destruct Hy as [<-|[]]|destruct Hy]. reflexivity. }
  exists [c], [q], (u "&#8217;"), (fst x). rewrite Ex. split; [reflexivity|]. split; [discriminate|]. split; [reflexivity|ref].
Qed.
Lemma ampersand_slim : slim lone_ampersand_at.
Proof.
  intros prev t o r. unfold lone_ampersand_at. destruct t as [|c t]; [discriminate|]. destruct (_ && _); [|discriminate]. intros E.
  assert (o = u "&amp;" /\ r = t) as [-> ->] by (split; congruence). exists [], [c], (u "&amp;"), []. split; [reflexivity|]. split; [discriminate|]. split; [reflexivity|ref].
Qed.

(** ** Automata that do not notice *)
Lemma suf_app A a : forall q b, Suf A q (a ++ b) -> exists q', Suf A q' b /\ forall x, Suf A q' x -> Suf A q (a ++ x).
Proof.
  induction a as [|c a IH]; intros q b H; [exists q; auto|]. cbn [app] in H. inversion H as [|q0 l q1 c0 w Hi Hc Hs]; subst.
  destruct (IH q1 b Hs) as (q' & H1 & H2). exists q'. split; auto. intros x Hx. cbn [app]. econstructor; eauto.
Qed.
Section Hub.
Variables (A : auto) (hub : nat).
Hypothesis to_hub : forall q t, Suf A q t -> Suf A hub t.
Hypothesis ref_ok : forall q t s x, Suf A q t -> t <> [] -> reference s -> Suf A hub x -> Suf A q (s ++ x).
Lemma rewrite_suf H : slim H -> forall n t prev q, (List.length t <= n)%nat -> Suf A q t -> Suf A q (rewrite_of H n prev t).
Proof.
  intros Hs. induction n as [|n IH]; intros t prev q Hl Ht.
  - destruct t; [exact Ht|cbn in Hl; lia].
  - destruct t as [|c t]; [exact Ht|]. cbn [rewrite_of]. destruct (H prev (c :: t)) as [[o r]|] eqn:E.
    + destruct (Hs _ _ _ _ E) as (a & k & s & z & Et & Hk & -> & Hr). set (prev' := last_of _ _). rewrite Et in Ht.
      destruct (suf_app A a q _ Ht) as (q1 & H1 & G1). destruct (suf_app A k q1 _ H1) as (q2 & H2 & _). apply to_hub in H2.
      destruct (suf_app A z hub _ H2) as (q3 & H3 & G3). rewrite <- !app_assoc. apply G1. eapply ref_ok; [exact H1|destruct k; [congruence|discriminate]|exact Hr|]. apply G3.
      apply IH; [|exact H3]. assert (List.length (c :: t) = List.length (a ++ k ++ z ++ r)) as El by (rewrite Et; reflexivity). rewrite !app_length in El. cbn in Hl, El. destruct k; [congruence|]. cbn in El. lia.
    + inversion Ht as [|q0 l q1 c0 w Hi Hc Hw]; subst. econstructor; eauto. apply IH; auto. cbn in Hl. lia.
Qed.
Lemma rewritten_suf H q t : slim H -> Suf A q t -> Suf A q (rewritten H t).
Proof. intros Hs Ht. apply rewrite_suf; auto. Qed.
Lemma rules_suf rules : (forall R, In R rules -> slim (rule_at R)) -> forall q t, Suf A q t -> Suf A q (by_rules rules t).
Proof.
  unfold by_rules. induction rules as [|R rules IH]; intros H q t Ht; [exact Ht|]. cbn [fold_left]. apply IH; [intros; apply H; right; auto|].
  apply rewritten_suf; [apply H; left; auto|exact Ht].
Qed.
(** All the rules, but the one for abbreviations. *)
Definition set_marks (t : str) : str := by_rules later_rules (rewritten year_at (rewritten (rule_at apostrophe) (rewritten times_at t))).
Lemma marks_suf q t : Suf A q t -> Suf A q (set_marks t).
Proof.
  intros H. apply rules_suf; [exact later_slim|]. apply rewritten_suf; [exact year_slim|]. apply rewritten_suf; [exact apostrophe_slim|]. apply rewritten_suf; [exact times_slim|exact H].
Qed.
End Hub.

(** ** The text that has been set *)
Definition set_chars : list cls := [SpecPlain.letter; SpecPlain.digit; SpecPlain.capital; inside; quote; sign; sentence_end; hyphen].
Definition set_prose : auto := mk_auto
  ([(0, SpecPlain.capital, 2); (0, SpecPlain.digit, 2); (0, quote, 2); (0, sign, 2)]
   ++ flat_map (fun q => map (fun l => (q, l, 2%nat)) set_chars) [1; 2; 3]
   ++ [(2, blank, 3); (2, newline, 1)])%nat 0%nat [2]%nat.
Lemma set_hub q t : Suf set_prose q t -> Suf set_prose 2 t.
Proof.
  intros H. destruct H as [q H|q l q' c w Hi Hc Hs]; [constructor; left; reflexivity|]. apply SufCons with l q'; auto. clear Hc Hs.
  cbn in Hi |- *. repeat (destruct Hi as [Hi|Hi]; [injection Hi as <- <- <-; tauto|]). destruct Hi.
Qed.
Lemma sign_38 : in_cls sign 38 = true. Proof. vm_compute. reflexivity. Qed.
Lemma ref_loop s x : forallb ref_char s = true -> Suf set_prose 2 x -> Suf set_prose 2 (s ++ x).
Proof.
  induction s as [|c s IH]; intros Hs Hx; [exact Hx|]. cbn [forallb] in Hs. apply andb_true_iff in Hs as [Hc Hs]. cbn [app].
  unfold ref_char, among in Hc. apply existsb_exists in Hc as (d & Hd & Hc). apply N.eqb_eq in Hc. subst d.
  assert (in_cls SpecPlain.letter c || in_cls SpecPlain.digit c || in_cls inside c = true) as K.
  { repeat (destruct Hd as [<-|Hd]; [vm_compute; reflexivity|]). destruct Hd. }
  apply orb_true_iff in K as [K|K]; [apply orb_true_iff in K as [K|K]|].
  - apply SufCons with SpecPlain.letter 2%nat; auto. cbn; tauto.
  - apply SufCons with SpecPlain.digit 2%nat; auto. cbn; tauto.
  - apply SufCons with inside 2%nat; auto. cbn; tauto.
Qed.
Lemma set_ref q t s x : Suf set_prose q t -> t <> [] -> reference s -> Suf set_prose 2 x -> Suf set_prose q (s ++ x).
Proof.
  intros Ht Hn (s' & -> & Hs) Hx. apply SufCons with sign 2%nat; [|exact sign_38|apply ref_loop; auto].
  destruct Ht as [q H|q l q' c w Hi Hc Hw]; [congruence|]. cbn in Hi |- *. repeat (destruct Hi as [Hi|Hi]; [injection Hi as <- <- <-; tauto|]). destruct Hi.
Qed.
(** ** Capitals *)
Definition upper : cls := mk_cls false [CProp false PLu].
Definition other : cls := mk_cls true [CProp false PLu].
Definition few : auto := mk_auto [(0, upper, 1); (1, upper, 2); (0, other, 0); (1, other, 0); (2, other, 0)]%nat 0%nat [0; 1; 2]%nat.
Lemma in_upper c : in_cls upper c = SpecGlyphRules.capital c.
Proof. unfold in_cls, upper. cbn [c_neg c_items existsb in_item has_prop]. unfold SpecGlyphRules.capital. destruct (rmem tab_Lu c); reflexivity. Qed.
Lemma in_other c : in_cls other c = negb (SpecGlyphRules.capital c).
Proof. unfold in_cls, other. cbn [c_neg c_items existsb in_item has_prop]. unfold SpecGlyphRules.capital. destruct (rmem tab_Lu c); reflexivity. Qed.
Lemma few_less q t : Suf few q t -> forall p, (p <= q)%nat -> (q <= 2)%nat -> Suf few p t.
Proof.
  induction 1 as [q H|q l q' c w Hi Hc Hs IH]; intros p Hp Hq; [constructor; cbn; lia|].
  cbn in Hi. repeat (destruct Hi as [Hi|Hi]; [injection Hi as <- <- <-|]); [..|destruct Hi].
  - assert (p = 0)%nat as -> by lia. apply SufCons with upper 1%nat; auto. cbn; tauto.
  - destruct p as [|[|p]]; [..|lia]; [apply SufCons with upper 1%nat|apply SufCons with upper 2%nat]; auto; cbn; tauto.
  - assert (p = 0)%nat as -> by lia. apply SufCons with other 0%nat; auto. cbn; tauto.
  - destruct p as [|[|p]]; [..|lia]; apply SufCons with other 0%nat; auto; cbn; tauto.
  - destruct p as [|[|[|p]]]; [..|lia]; apply SufCons with other 0%nat; auto; cbn; tauto.
Qed.
Lemma few_states q t : Suf few q t -> (q <= 2)%nat.
Proof. destruct 1 as [q H|q l q' c w Hi Hc Hs]; cbn in *; [lia|]. repeat (destruct Hi as [Hi|Hi]; [injection Hi as <- <- <-; lia|]). destruct Hi. Qed.
Lemma few_hub q t : Suf few q t -> Suf few 0 t.
Proof. intros H. apply (few_less q); [exact H|lia|apply (few_states _ _ H)]. Qed.
Lemma few_plain c q x : (q <= 2)%nat -> SpecGlyphRules.capital c = false -> Suf few 0 x -> Suf few q (c :: x).
Proof. intros Hq Hc Hx. apply SufCons with other 0%nat; [|rewrite in_other, Hc; reflexivity|exact Hx]. destruct q as [|[|[|q]]]; [..|lia]; cbn; tauto. Qed.
Lemma few_ref q t s x : Suf few q t -> t <> [] -> reference s -> Suf few 0 x -> Suf few q (s ++ x).
Proof.
  intros Ht _ (s' & -> & Hs) Hx. apply few_states in Ht. cbn [app]. apply few_plain; auto. clear q t Ht. induction s' as [|c s IH]; [exact Hx|].
  cbn [forallb] in Hs. apply andb_true_iff in Hs as [Hc Hs]. cbn [app]. apply few_plain; [lia| |auto].
  unfold ref_char, among in Hc. apply existsb_exists in Hc as (d & Hd & Hc). apply N.eqb_eq in Hc. subst d. repeat (destruct Hd as [<-|Hd]; [vm_compute; reflexivity|]). destruct Hd.
Qed.
Lemma few_of t : forall q w, (q <= 2)%nat -> List.length w = q -> forallb SpecGlyphRules.capital w = true -> few_capitals (w ++ t) -> Suf few q t.
Proof.
  induction t as [|c t IH]; intros q w Hq Hl Hw Hf; [constructor; cbn; lia|]. destruct (SpecGlyphRules.capital c) eqn:Ec.
  - assert (q < 2)%nat as Hq2.
    { destruct (Nat.eq_dec q 2) as [->|]; [exfalso|lia]. destruct w as [|x [|y [|z w]]]; try discriminate. cbn [forallb] in Hw. rewrite !andb_true_iff in Hw. destruct Hw as (Hx & Hy & _).
      exact (Hf [] x y c t eq_refl Hx Hy Ec). }
    apply SufCons with upper (S q); [destruct q as [|[|q]]; [..|lia]; cbn; tauto|rewrite in_upper; exact Ec|]. apply (IH (S q) (w ++ [c])).
    + lia.
    + rewrite app_length. cbn. lia.
    + rewrite forallb_app, Hw. cbn [forallb]. rewrite Ec. reflexivity.
    + rewrite <- app_assoc. exact Hf.
  - apply few_plain; auto. apply (IH 0%nat []); [lia|reflexivity|reflexivity|]. intros a x y z b E. apply (Hf (w ++ c :: a) x y z b). cbn [app] in E. rewrite E, <- app_assoc. reflexivity.
Qed.
Lemma few_three x y z b q : SpecGlyphRules.capital x = true -> SpecGlyphRules.capital y = true -> SpecGlyphRules.capital z = true -> Suf few q (x :: y :: z :: b) -> False.
Proof.
  intros Hx Hy Hz H. assert (forall c q w, SpecGlyphRules.capital c = true -> Suf few q (c :: w) -> (q < 2)%nat /\ Suf few (S q) w) as St.
  { intros c q0 w Hc H0. inversion H0 as [|q1 l q2 c0 w0 Hi Hl Hs]; subst. cbn in Hi.
    repeat (destruct Hi as [Hi|Hi]; [injection Hi as <- <- <-; first [split; [lia|exact Hs] | rewrite in_other, Hc in Hl; discriminate]|]). destruct Hi. }
  apply St in H as [H1 H]; auto. apply St in H as [H2 H]; auto. apply St in H as [H3 H]; auto. lia.
Qed.

(** ** Rules that do not apply *)
Lemma rewrite_none H : forall n t prev, (List.length t <= n)%nat -> (forall p a b, t = a ++ b -> H p b = None) -> rewrite_of H n prev t = t.
Proof.
  induction n as [|n IH]; intros t prev Hl Hn; destruct t as [|c t]; try reflexivity; [cbn in Hl; lia|]. cbn [rewrite_of]. rewrite (Hn prev [] (c :: t) eq_refl). f_equal. apply IH; [cbn in Hl; lia|].
  intros p a b E. apply (Hn p (c :: a) b). rewrite E. reflexivity.
Qed.
Lemma no_abbreviation html5 t : ~ In 40 t -> rewritten (abbreviation_at html5) t = t.
Proof.
  intros H. apply rewrite_none; [lia|]. intros p a b E. destruct b as [|c b]; [reflexivity|]. cbn [abbreviation_at]. destruct (run capital_or_digit b) as [w r] eqn:Er.
  apply run_split in Er as (-> & _). destruct (_ && _ && _ && _); [|reflexivity]. destruct r as [|d r]; [reflexivity|]. destruct (run (fun d0 => negb (d0 =? 41)) r) as [x [|e r2]]; [reflexivity|].
  destruct (N.eqb_spec d 40) as [->|]; [|reflexivity]. destruct H. rewrite E, in_app_iff. right. right. rewrite in_app_iff. right. left. reflexivity.
Qed.
Lemma no_capitals uid t : Suf few 0 t -> rewritten (capitals_at uid) t = t.
Proof.
  intros H. apply rewrite_none; [lia|]. intros p a b E. rewrite E in H. destruct (suf_app few a _ _ H) as (q & Hb & _).
  unfold capitals_at. destruct (first_of _ _) as [y|] eqn:F; [exfalso|reflexivity]. apply first_some in F as (x & Hx & F).
  assert (exists q', Suf few q' (snd x)) as (q' & Hq).
  { apply in_app_or in Hx as [Hx|Hx]; [|apply in_app_or in Hx as [Hx|Hx]].
    - destruct b as [|c b]; [destruct Hx|]. cbn [take_one] in Hx. destruct (is_ws c); [destruct Hx as [<-|[]]|destruct Hx]. inversion Hb; subst. eauto.
    - destruct p; [destruct Hx|]. destruct Hx as [<-|[]]. eauto.
    - destruct b as [|c b]; [destruct Hx|]. cbn [take_one] in Hx. destruct (among _ c); [destruct Hx as [<-|[]]|destruct Hx]. inversion Hb; subst. eauto. }
  destruct (run SpecGlyphRules.capital (snd x)) as [w r] eqn:Er. apply run_split in Er as (Er & Hw & _). rewrite Er in Hq. destruct (run SpecGlyphText.small r) as [z r2].
  destruct (Nat.leb 3 (List.length w)) eqn:El; [|discriminate]. apply Nat.leb_le in El. destruct w as [|c1 [|c2 [|c3 w]]]; cbn in El; try lia.
  cbn [forallb] in Hw. rewrite !andb_true_iff in Hw. destruct Hw as (H1 & H2 & H3 & _). cbn [app] in Hq. exact (few_three _ _ _ _ _ H1 H2 H3 Hq).
Qed.
Lemma no_tags f t : ~ In 60 t -> between_tags f t = f t.
Proof.
  intros H. unfold between_tags. assert (forall n t before, (List.length t <= n)%nat -> ~ In 60 t -> between_of f n t before = f (rev before ++ t)) as L.
  { induction n as [|n IH]; intros t0 before Hl H0; destruct t0 as [|c t0]; cbn [between_of]; rewrite ?app_nil_r; try reflexivity; [cbn in Hl; lia|].
    assert (tag_at (c :: t0) = None) as ->.
    { cbn [tag_at]. destruct t0 as [|d t0]; [reflexivity|]. destruct (run _ t0) as [w [|e r]]; [reflexivity|]. destruct (N.eqb_spec c 60) as [->|]; [destruct H0; left; reflexivity|reflexivity]. }
    rewrite IH; [|cbn in Hl; lia|intros F; apply H0; right; exact F]. cbn [rev]. rewrite <- app_assoc. reflexivity. }
  rewrite L by auto. reflexivity.
Qed.
Lemma no_angles t : ~ In 60 (rewritten lone_ampersand_at t) -> ~ In 62 (rewritten lone_ampersand_at t) -> escaped t = rewritten lone_ampersand_at t.
Proof.
  intros H1 H2. unfold escaped. set (x := rewritten lone_ampersand_at t) in *. clearbody x. induction x as [|c x IH]; [reflexivity|]. cbn [flat_map].
  rewrite IH by (intros F; first [apply H1; right; exact F | apply H2; right; exact F]). destruct (N.eqb_spec c 60) as [->|]; [destruct H1; left; reflexivity|]. destruct (N.eqb_spec c 62) as [->|]; [destruct H2; left; reflexivity|]. reflexivity.
Qed.
