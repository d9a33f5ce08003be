(** Restricted mode and raw HTML. *)
From Coq Require Import Lia.
From Verif Require Import Str Regex Lib RegexAuto ModelBase ModelHtml ModelAttrs SpecHtml ProofHtml SpecAttrs ProofAttrs ModelInline ModelParser SpecParse SpecPlain SpecNewlines ProofNewlines ProofParas ProofSections ProofDoc SpecDoc ProofDocument ProofTokens SpecSafe Samples.
#[local] Arguments u : simpl never.

Lemma made_app L a b : made_of L a -> made_of L b -> made_of L (a ++ b).
Proof. intros H K. induction H as [|c t Hc H IH|g t Hg H IH]; [exact K|cbn [app]; constructor; auto|rewrite <- app_assoc; constructor 3; auto]. Qed.
Lemma made_plain L t : ~ In 60 t -> made_of L t.
Proof. induction t as [|c t IH]; intros H; [constructor|]. constructor; [intros ->; apply H; left; auto|apply IH; intros F; apply H; right; auto]. Qed.
Lemma made_tag L g : In g L -> made_of L g.
Proof. intros H. rewrite <- (app_nil_r g). constructor 3; [exact H|constructor]. Qed.
Lemma made_breaks L br t : made_of L br -> ~ In 60 t -> made_of L (breaks br t).
Proof.
  intros Hb. induction t as [|c t IH]; intros H; [constructor|]. unfold breaks. cbn [flat_map]. fold (breaks br t). apply made_app; [|apply IH; intros F; apply H; right; auto].
  destruct (c =? 10); [exact Hb|]. constructor; [intros ->; apply H; left; auto|constructor].
Qed.
Lemma made_element tag t : In (u "<" ++ tag ++ u ">") own_tags -> In (u "</" ++ tag ++ u ">") own_tags -> made_of own_tags t -> made_of own_tags (element tag t).
Proof.
  intros H1 H2 H. unfold element. replace (u "<" ++ tag ++ u ">" ++ t ++ u "</" ++ tag ++ u ">") with ((u "<" ++ tag ++ u ">") ++ t ++ (u "</" ++ tag ++ u ">")) by (rewrite <- !app_assoc; reflexivity).
  constructor 3; auto. apply made_app; auto. apply made_tag; auto.
Qed.
Lemma made_break T : made_of own_tags (line_break T).
Proof. unfold line_break. apply made_app; [destruct (t_html T); apply made_tag; vm_compute; tauto|apply made_plain; intros [F|[]]; discriminate]. Qed.
Lemma made_block T b : plain b -> made_of own_tags (block_html (line_break T) (restricted_block b)).
Proof.
  assert (forall t, accepts paragraph t -> ~ In 60 t) as P by (intros t H; apply (no_match_ch 60), para_small; cbn [In]; tauto).
  destruct b as [t|n t|t|t|t]; cbn [plain restricted_block block_html]; intros H.
  - apply made_element; [vm_compute; tauto..|]. apply made_breaks; auto. apply made_break.
  - destruct H as [Hn H]. assert (In n [1; 2; 3; 4; 5; 6]) as Hi by (cbn [In]; lia).
    apply made_element; [| |apply made_breaks; auto; apply made_break]; clear - Hi; cbn [In] in Hi; repeat (destruct Hi as [<-|Hi]; [vm_compute; tauto|]); destruct Hi.
  - apply made_element; [vm_compute; tauto..|]. apply made_element; [vm_compute; tauto..|]. apply made_plain, entities_60.
  - apply made_element; [vm_compute; tauto..|]. apply made_plain, entities_60.
  - apply made_plain, entities_60.
Qed.
Lemma made_sections L l : (forall t, In t l -> made_of L t) -> made_of L (sections l).
Proof.
  intros H. induction l as [|t l IH]; [constructor|]. assert (made_of L (sections l)) as E by (apply IH; intros x Hx; apply H; right; auto).
  destruct l; [apply H; left; auto|]. cbn [sections]. apply made_app; [apply H; left; auto|]. apply made_app; [apply made_plain; intros [F|[F|[]]]; discriminate|exact E].
Qed.
Lemma documents_safe W T fuel bs : ready T -> t_restricted T = true -> (1 < fuel)%nat -> (forall b, In b bs -> proper T b) ->
  exists html s, parse W T fuel [] (sections (map source bs)) = Ret html s /\ made_of own_tags html.
Proof.
  intros H Hr Hf Hb. destruct (documents W T fuel bs H Hf Hb) as (s & E). eexists _, s. split; [exact E|]. unfold seen_blocks. rewrite Hr. apply made_sections.
  intros t Ht. apply in_map_iff in Ht. destruct Ht as (b' & <- & Hb'). apply in_map_iff in Hb'. destruct Hb' as (b & <- & Hi). apply made_block. apply (Hb b Hi).
Qed.
Lemma replace_go_in x p q : forall t k, In x (replace_go p q k t) -> In x t \/ In x q.
Proof.
  induction t as [|c t IH]; intros k H; [destruct H|]. cbn [replace_go] in H. destruct k as [|k].
  - destruct (starts_with p (c :: t)).
    + apply in_app_or in H. destruct H as [H|H]; [auto|]. destruct (IH _ H); [left; right|right]; auto.
    + destruct H as [<-|H]; [left; left; auto|]. destruct (IH _ H); [left; right|right]; auto.
  - destruct (IH _ H); [left; right|right]; auto.
Qed.
Lemma entities_62 q t : ~ In 62 (entities q t).
Proof.
  intros F. unfold entities in F. apply in_flat_map in F. destruct F as (c & Hc & F). rewrite entity_char in F. unfold encode_char in F. cbn [andb] in F.
  destruct (N.eqb_spec c 62) as [->|]; [vm_compute in F; intuition discriminate|].
  repeat match goal with H : context [if ?x then _ else _] |- _ => destruct x; [vm_compute in H; intuition discriminate|] end. destruct F as [F|[]]. congruence.
Qed.
Lemma prepared_safe T text : simple_uid (t_uid T) -> t_restricted T = true -> ~ In 60 (prepare T text) /\ ~ In 62 (prepare T text).
Proof.
  intros Hu Hr. assert (forall x, ~ white_space x -> In x (prepare T text) -> In x (entities false text)) as H.
  { intros x Hx H. unfold prepare in H. rewrite Hr, encoded, normalize_tidy in H. unfold replace_str in H. destruct (t_uid T) eqn:E; [exfalso; eapply uid_ne; eauto|].
    apply replace_go_in in H. destruct H as [H|[]]. apply (proj1 (in_tidy x _ Hx)) in H. exact H. }
  split; intros F; apply H in F; try (unfold white_space; lia); [eapply entities_60|eapply entities_62]; eauto.
Qed.

(** ** Attributes *)
Lemma spec_attributes text el inc s a s' : block_attributes_parse text el inc true s = Ret a s' ->
  exists l, attributes_of (join_html_attributes [] (ba_html_attrs a)) = Some l /\
    forall k v, In (k, v) l -> In k (map u ["colspan"; "lang"; "rowspan"; "span"; "style"; "width"]%string).
Proof.
  intros H. rewrite attributes_of_join. eexists. split; [reflexivity|]. intros k v Hk. apply in_map_iff in Hk. destruct Hk as ((k', v') & E & Hi). inversion E; subst.
  apply filter_In in Hi. destruct Hi as [Hi _]. destruct (spec_values _ _ _ _ _ _ _ _ _ H Hi) as (_ & _ & _ & Hk). destruct (restricted_spec _ _ _ _ _ _ _ _ H Hi) as (H1 & H2 & _).
  cbn [map In fst] in *. repeat (destruct Hk as [Hk|Hk]; [subst; (congruence || tauto)|]). destruct Hk.
Qed.

(** ** Examples *)
Lemma restricted_proper : Forall (proper (set_restricted true T0)) [Para (u "One two"); SpecPlain.Raw (u "<b>"); Code (u "<i>")].
Proof.
  assert (forall t, List.length t = 3%nat -> token_free (set_restricted true T0) t) as F.
  { intros t L a b E. apply (f_equal (@List.length N)) in E. rewrite !app_length, L in E. change (t_uid (set_restricted true T0)) with (u "textileRef:abc:") in E.
    change (List.length (u "textileRef:abc:")) with 15%nat in E. lia. }
  apply Forall_cons; [|apply Forall_cons; [|apply Forall_cons; [|apply Forall_nil]]]; (split; [|split; [|discriminate]]).
  - apply runs_accepts. vm_compute. reflexivity.
  - intros a b E. apply (f_equal (@List.length N)) in E. rewrite !app_length in E. change (t_uid (set_restricted true T0)) with (u "textileRef:abc:") in E.
    change (List.length (u "textileRef:abc:")) with 15%nat in E. cbn in E. lia.
  - split; [split; [vm_compute; intuition discriminate|intros l H; vm_compute in H; destruct H as [<-|[]]; reflexivity]|].
    intros a x y b E. vm_compute in E. destruct a as [|c a]; [inversion E; subst; intros _ [F'|F']; discriminate|]. destruct a as [|d a]; [inversion E|]. destruct a as [|e [|]]; inversion E.
  - apply F. reflexivity.
  - split; [vm_compute; intuition discriminate|intros l H; vm_compute in H; destruct H as [<-|[]]; reflexivity].
  - apply F. reflexivity.
Qed.
Lemma img_not_own : ~ made_of own_tags (u "<img>").
Proof.
  intros H. change (u "<img>") with [60; 105; 109; 103; 62] in H. inversion H as [|c t Hc H'|g t Hg H' E]; subst; [congruence|].
  assert (forallb (fun g => negb (starts_with g [60; 105; 109; 103; 62])) own_tags = true) as F by (vm_compute; reflexivity). rewrite forallb_forall in F. specialize (F g Hg).
  rewrite <- E in F. assert (starts_with g (g ++ t) = true) as G by (apply starts_with_iff; eauto). rewrite G in F. discriminate.
Qed.
