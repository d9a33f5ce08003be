(** Tags of lists are balanced. *)
From Coq Require Import ZArith.
From Verif Require Import Str Unicode Regex RegexParse RegexSnips RegexTheory RegexAuto RegexGroups Lib ModelBase ModelHtml ModelUrl
  ModelAttrs ModelInline ModelParser SpecRegex ProofRegex SpecHtml ProofHtml ProofCharref SpecParse ProofParse Logic ProofWalk ProofState SpecState ProofMemory ProofCache ProofLinks ProofSpan ProofDoc
  SpecPlain ProofPlain SpecNewlines ProofNewlines ProofParas ProofTags ProofSections ProofBlocks ProofStateEx SpecDoc ProofDocument SpecText ProofText ProofPieces ProofWeave SpecLists ProofLists ProofListText ProofListDoc.
(** ** Balanced tags *)
Lemma nested_join l : Forall nested l -> nested (join [10] l).
Proof.
  assert (N : nested [10]) by (apply NestedText; intros [F|[]]; discriminate).
  induction 1 as [|x l Hx Hl IH]; [apply NestedText; intros []|]. destruct l as [|y l]; [exact Hx|]. change (join [10] (x :: y :: l)) with (x ++ [10] ++ join [10] (y :: l)). repeat apply NestedApp; auto.
Qed.
Lemma nested_tabs n : nested (tabs n).
Proof. apply NestedText; apply tabs_60; discriminate. Qed.
Lemma nested_text t : accepts item_text t -> nested t.
Proof. intros H. assert (K : forallb (never item_text) [RCls (ch 60); RCls (ch 62)] = true) by (vm_compute; reflexivity). apply NestedText; apply no_match_ch; (eapply never_in; [exact K|exact H|cbn [In]; tauto]). Qed.
Lemma nested_nl : nested [10].
Proof. apply NestedText; intros [F|[]]; discriminate. Qed.
Lemma nested_li w : nested w -> nested (u "<li>" ++ w ++ u "</li>").
Proof. intros H. apply (NestedElement (u "li") [] w); auto; try discriminate; try (intros []). Qed.
Lemma nested_p w : nested w -> nested (u "<p>" ++ w ++ u "</p>").
Proof. intros H. apply (NestedElement (u "p") [] w); auto; try discriminate; try (intros []). Qed.
Lemma nested_list k p c w : nested w -> nested (fst (opening k p c) ++ w ++ closing k).
Proof.
  intros H. assert (D : forall n x, ~ (48 <= x <= 57) -> ~ In x (dec n)). { intros n x Hx F. pose proof (dec_digits n) as E. rewrite Forall_forall in E. apply E in F. contradiction. }
  assert (Q : forall n, nested ((u "<ol start=""" ++ dec n ++ u """>") ++ w ++ u "</ol>")).
  { intros n. pose proof (NestedElement (u "ol") (u " start=""" ++ dec n ++ u """") w) as E. rewrite <- !app_assoc in *. apply E; auto; try discriminate.
    - rewrite !in_app_iff. intros [F|[F|F]]; [|revert F; apply D; lia|]; apply (in_map (fun c => c =? 60)) in F; vm_compute in F; intuition discriminate.
    - rewrite !in_app_iff. intros [F|[F|F]]; [|revert F; apply D; lia|]; apply (in_map (fun c => c =? 62)) in F; vm_compute in F; intuition discriminate.
    - right. eexists. reflexivity. }
  destruct k as [|[| |]]; cbn [opening fst closing]; [| |apply Q|apply Q]; [apply (NestedElement (u "ul") [] w)|apply (NestedElement (u "ol") [] w)]; auto; try discriminate; try (intros []).
Qed.
Lemma nested_item i : (forall t, In t (texts i) -> accepts item_text t) -> forall d k p c x c', item_html d k p i c = Some (x, c') -> nested x.
Proof.
  induction i as [t k' sub IH] using item_induction. intros Ht d k p c x c' E. cbn [item_html] in E. destruct (take_number k p c) as [c1|]; [|discriminate].
  assert (At : nested t) by (apply nested_text, Ht; left; reflexivity). assert (T1 : nested [9]) by (apply (nested_tabs 1)). destruct sub as [|i l].
  - inversion E; subst. apply NestedApp; [apply nested_tabs|]. apply (NestedApp [9] (u "<li>" ++ t ++ u "</li>")); [exact T1|apply nested_li; exact At].
  - set (sub := i :: l) in *. set (p' := p ++ [mark_of k']) in *. pose proof (nested_list k' p' c1) as Ho. destruct (opening k' p' c1) as [tag c2] eqn:Eo. cbn [fst] in Ho.
    destruct (run_items (item_html (S d) k' p') sub c2) as [[lines c3]|] eqn:Er; [|discriminate]. inversion E; subst x c'. clear E.
    assert (G : Forall nested lines /\ List.length lines = List.length sub).
    { eapply run_items_all; [|exact Er]. intros i0 c0 x0 c0' Hi E0. rewrite Forall_forall in IH. eapply (IH i0 Hi); [|exact E0]. intros t0 H0. apply Ht. cbn [texts]. right. apply in_flat_map. eauto. }
    destruct G as [G _]. apply nested_join in G. unfold str in *. set (n := of_last (last_indent (S d)) (last_indent (S d) i) l) in *.
    apply NestedApp; [apply nested_tabs|]. pose proof (NestedApp [9] _ T1 (nested_li (t ++ [10] ++ tabs (S d) ++ (tag ++ ([10] ++ join [10] lines ++ [10] ++ tabs n) ++ closing k'))
      (NestedApp _ _ At (NestedApp _ _ nested_nl (NestedApp _ _ (nested_tabs (S d)) (Ho _ (NestedApp _ _ nested_nl (NestedApp _ _ G (NestedApp _ _ nested_nl (nested_tabs n)))))))))) as R.
    rewrite <- !app_assoc in R. exact R.
Qed.
Lemma nested_html k items c x c' : (forall t, In t (flat_map texts items) -> accepts item_text t) -> list_html k items c = Some (x, c') -> nested x.
Proof.
  intros Ht E. unfold list_html in E. pose proof (nested_list k [mark_of k] c) as Ho. destruct (opening k [mark_of k] c) as [tag c2] eqn:Eo. cbn [fst] in Ho. destruct (run_items _ items c2) as [[lines c3]|] eqn:Er; [|discriminate]. inversion E; subst x c'. clear E.
  assert (G : Forall nested lines /\ List.length lines = List.length items).
  { eapply run_items_all; [|exact Er]. intros i0 c0 x0 c0' Hi E0. eapply nested_item; [|exact E0]. intros t0 H0. apply Ht. apply in_flat_map. eauto. }
  destruct G as [G _]. apply nested_join in G. unfold str in *. set (n := of_last (last_indent 0) 0 items) in *.
  pose proof (Ho _ (NestedApp _ _ nested_nl (NestedApp _ _ G (NestedApp _ _ nested_nl (nested_tabs n))))) as R. rewrite <- !app_assoc in R. exact R.
Qed.
Lemma nested_sections l : Forall nested l -> nested (sections l).
Proof.
  induction 1 as [|x l Hx Hl IH]; [apply NestedText; intros []|]. destruct l as [|y l]; [exact Hx|]. rewrite sections_cons by discriminate. apply NestedApp; [exact Hx|].
  apply (NestedApp [10]); [apply nested_nl|]. apply (NestedApp [10]); [apply nested_nl|]. exact IH.
Qed.
Lemma nested_parts l : Forall proper_part l -> forall c hs, parts_html l c = Some hs -> Forall nested hs.
Proof.
  induction 1 as [|p l Hp Hl IH]; intros c hs E; cbn [parts_html] in E; [inversion E; constructor|]. destruct (part_html p c) as [[x c1]|] eqn:E1; [|discriminate].
  destruct (parts_html l c1) as [xs|] eqn:E2; [|discriminate]. inversion E; subst. constructor; [|eapply IH; exact E2]. destruct p as [t|k items]; cbn [part_html proper_part] in *.
  - assert (x = u "<p>" ++ t ++ u "</p>") as -> by congruence. assert (K : forallb (never one_line) [RCls (ch 60); RCls (ch 62)] = true) by (vm_compute; reflexivity).
    apply nested_p. apply NestedText; apply no_match_ch; (eapply never_in; [exact K|exact Hp|cbn [In]; tauto]).
  - destruct Hp as (_ & Ht & _). eapply nested_html; [|exact E1]. intros t H. apply Ht. exact H.
Qed.
Lemma lists_nested W T fuel l x s : ready T -> t_lite T = false -> (0 < fuel)%nat -> Forall proper_part l -> parse W T fuel [] (sections (map part_source l)) = Ret x s -> nested x.
Proof.
  intros Hr Hl Hf H E. pose proof (lists_document W T (proj1 Hr) Hl fuel l Hr Hf H) as D. destruct (parts_html l from_one) as [hs|] eqn:Eh; [|congruence].
  destruct D as (s2 & D). assert (x = sections hs) as -> by congruence. apply nested_sections. eapply nested_parts; eauto.
Qed.

(** ** As many closing tags as opening tags *)
Fixpoint surplus (x : str) : Z :=
  match x with
  | [] => 0
  | c :: r => ((if (c =? 60)%N then (match r with d :: _ => if (d =? 47)%N then -1 else 1 | [] => 1 end) else 0) + surplus r)%Z
  end.
Definition no_open (a : str) : Prop := forall q, a <> q ++ [60].
Lemma no_open_tail c a : no_open (c :: a) -> a <> [] -> no_open a.
Proof. intros H _ q E. apply (H (c :: q)). cbn [app]. congruence. Qed.
Lemma surplus_app a b : no_open a -> surplus (a ++ b) = (surplus a + surplus b)%Z.
Proof.
  induction a as [|c a IH]; intros H; [reflexivity|]. destruct a as [|d a].
  - cbn [app surplus]. destruct (N.eqb_spec c 60) as [->|]; [exfalso; apply (H []); reflexivity|]. lia.
  - change ((c :: d :: a) ++ b) with (c :: (d :: a) ++ b). cbn [surplus]. cbn [surplus] in IH. rewrite IH by (eapply no_open_tail; [exact H|discriminate]). cbn [app]. lia.
Qed.
Lemma surplus_none t : ~ In 60 t -> surplus t = 0%Z.
Proof. induction t as [|c t IH]; intros H; [reflexivity|]. cbn [surplus]. destruct (N.eqb_spec c 60) as [->|]; [exfalso; apply H; left; reflexivity|]. rewrite IH; [reflexivity|]. intros F. apply H. right. exact F. Qed.
Lemma no_open_in t : ~ In 60 t -> no_open t.
Proof. intros H q E. apply H. rewrite E. apply in_or_app. right. left. reflexivity. Qed.
Lemma no_open_last a c : c <> 60 -> no_open (a ++ [c]).
Proof. intros H q E. apply app_inj_tail in E as [_ E]. contradiction. Qed.
Lemma no_open_app a b : no_open a -> no_open b -> no_open (a ++ b).
Proof.
  intros Ha Hb. destruct b as [|d b'] using rev_ind; [rewrite app_nil_r; exact Ha|]. rewrite app_assoc. apply no_open_last. intros ->. apply (Hb b'). reflexivity.
Qed.
Lemma nested_surplus x : nested x -> no_open x /\ surplus x = 0%Z.
Proof.
  induction 1 as [t H1 H2|a b Ha [A1 A2] Hb [B1 B2]|name atts w Hn Hne H1 H2 H3 Hw [W1 W2]].
  - split; [apply no_open_in; exact H1|apply surplus_none; exact H1].
  - split; [apply no_open_app; assumption|rewrite surplus_app, A2, B2; auto].
  - assert (N1 : ~ In 60 name) by (intros F; rewrite forallb_forall in Hn; specialize (Hn _ F); discriminate).
    split.
    + replace (60 :: name ++ atts ++ [62] ++ w ++ u "</" ++ name ++ [62]) with ((60 :: name ++ atts ++ [62] ++ w ++ u "</" ++ name) ++ [62]) by (cbn [app]; rewrite <- !app_assoc; cbn [app]; rewrite <- !app_assoc; reflexivity). apply no_open_last. discriminate.
    + destruct name as [|c n]; [contradiction|]. assert (c <> 47) as Hc by (intros ->; discriminate). assert (c <> 60) as Hc' by (intros ->; discriminate).
      assert (E : forall r, surplus ((c :: n) ++ r) = surplus r). { intros r. rewrite surplus_app by (apply no_open_in; exact N1). rewrite (surplus_none (c :: n)) by exact N1. reflexivity. }
      assert (K1 : forall r, surplus (60 :: (c :: n) ++ r) = (1 + surplus r)%Z). { intros r. rewrite <- (E r). cbn [surplus app]. rewrite (proj2 (N.eqb_neq c 47) Hc). reflexivity. }
      rewrite K1. rewrite surplus_app by (apply no_open_in; exact H1). rewrite (surplus_none atts) by exact H1.
      rewrite (surplus_app [62]) by (apply no_open_in; intros [F|[]]; discriminate). rewrite surplus_app by exact W1. rewrite W2.
      assert (K2 : surplus (u "</" ++ (c :: n) ++ [62]) = Z.add (-1) (surplus ((c :: n) ++ [62]))) by reflexivity.
      rewrite K2, E. reflexivity.
Qed.
Lemma not_nested x : surplus x <> 0%Z -> ~ nested x.
Proof. intros H F. apply H. apply nested_surplus. exact F. Qed.

(** ** For the examples *)
Definition fitsb (k : kind) : bool := match k with Numbers (Number n) => n <=? 18446744073709551615 | _ => true end.
Lemma proper_of k items : items <> [] -> forallb (fun t => ProofDocument.runs item_text [au_start item_text] t && forallb same_width t) (flat_map texts items) = true ->
  forallb fitsb (k :: flat_map kinds items) = true -> proper_list k items.
Proof.
  intros Hn Ht Hk. rewrite forallb_forall in Ht, Hk. split; [exact Hn|split].
  - intros t H. apply Ht in H. apply andb_prop in H as [H1 H2]. split; [apply runs_accepts; exact H1|exact H2].
  - intros k' H. apply Hk in H. destruct k' as [|[|n|]]; cbn [fits fitsb] in *; auto. apply N.leb_le. exact H.
Qed.
