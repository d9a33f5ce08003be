(** Theorems about placeholders and about the number of steps. *)
From Verif Require Import Str ModelBase ModelInline ModelParser SpecPlain SpecDoc SpecNewlines SpecShelf ProofShelf ProofTokens ProofFuel Samples.

(** ** C35: stored fragments are restored *)
(** If every fragment mentions earlier ones only and no placeholder prefix arises where literal pieces meet. *)
Theorem C35_restored_partial : forall fuel T s fs ps, simple_uid (t_uid T) ->
  ps_shelf s = store_of (t_uid T) fs -> earlier [] fs -> known fs ps ->
  exists qs, stands_for fs (S (List.length fs)) ps qs /\ (forall i, ~ In (Mark Fragment i) qs) /\
    (only_marks (t_uid T) qs -> (S (List.length fs) < fuel)%nat ->
     retrieve fuel (render (t_uid T) ps) s = Ret (render (t_uid T) qs) s).
Proof. exact restored. Qed.
Print Assumptions C35_restored_partial.
(** In whatever order the fragments were stored. *)
Theorem C35_any_order_partial : forall fuel T s fs d ps qs, simple_uid (t_uid T) ->
  ps_shelf s = store_of (t_uid T) fs -> NoDup (map fst fs) -> stands_for fs d ps qs ->
  only_marks (t_uid T) qs -> (d < fuel)%nat ->
  retrieve fuel (render (t_uid T) ps) s = Ret (render (t_uid T) qs) s.
Proof. exact restored_any. Qed.
Print Assumptions C35_any_order_partial.
(** A document can store a fragment that contains its own placeholder: parsing never ends. *)
Theorem C35_circular_refuted : forall W fuel,
  parse W T0 fuel [] (u "==xtextileReftextileRef:abc::abc:1:shelve==") = Diverge.
Proof. exact circular_diverges. Qed.
Print Assumptions C35_circular_refuted.
Definition fs1 : fragments := [(1, [Lit (u "x > y")]); (2, [Lit (u "<code>"); Mark Fragment 1; Lit (u "</code>")])].
Definition ps1 : list piece := [Lit (u "<p>"); Mark Fragment 2; Mark Url 3; Mark Fragment 1].
Example C35_example : simple_uid (t_uid T0) /\ earlier [] fs1 /\ known fs1 ps1 /\
  store_of (t_uid T0) fs1 = [(u "textileRef:abc:1:shelve", u "x > y"); (u "textileRef:abc:2:shelve", u "<code>textileRef:abc:1:shelve</code>")] /\
  render (t_uid T0) ps1 = u "<p>textileRef:abc:2:shelvetextileRef:abc:3:urltextileRef:abc:1:shelve" /\
  only_marks (t_uid T0) [Lit (u "<p>"); Lit (u "<code>"); Lit (u "x > y"); Lit (u "</code>"); Mark Url 3; Lit (u "x > y")] /\
  stands_for fs1 2 ps1 [Lit (u "<p>"); Lit (u "<code>"); Lit (u "x > y"); Lit (u "</code>"); Mark Url 3; Lit (u "x > y")].
Proof.
  split; [exact m1_uid|]. split; [|split; [|split; [|split; [|split]]]].
  - split; [intros []|]. split; [intros i [F|[]]; discriminate|]. split; [intros [F|[]]; discriminate|]. split; [|exact I].
    intros i [F|[F|[F|[]]]]; try discriminate. injection F as <-. left. reflexivity.
  - intros i [F|[F|[F|[F|[]]]]]; try discriminate; injection F as <-; [right; left|left]; reflexivity.
  - vm_compute. reflexivity.
  - vm_compute. reflexivity.
  - apply (marks_only _ 82); [vm_compute; tauto|]. intros t F. repeat destruct F as [F|F]; try discriminate; try contradiction; injection F as <-; vm_compute; intuition discriminate.
  - apply sf_lit. apply (sf_fragment fs1 1 2 [Lit (u "<code>"); Mark Fragment 1; Lit (u "</code>")] [Lit (u "<code>"); Lit (u "x > y"); Lit (u "</code>")]).
    + right. left. reflexivity.
    + apply sf_lit. apply (sf_fragment fs1 0 1 [Lit (u "x > y")] [Lit (u "x > y")]); [left; reflexivity| |]; repeat constructor.
    + apply sf_other; [discriminate|]. apply (sf_fragment fs1 1 1 [Lit (u "x > y")] [Lit (u "x > y")]); [left; reflexivity| |]; repeat constructor.
Qed.

(** ** C37: the prefix is removed from the document *)
(** If each occurrence stands at the start or after a character that does not occur in it. *)
Theorem C37_removed_partial : forall T text, t_uid T <> [] ->
  set_apart (t_uid T) (tidy (if t_restricted T then entities false text else text)) -> token_free T (prepare T text).
Proof. exact prepared_apart. Qed.
Print Assumptions C37_removed_partial.
(** Nothing else is removed: the prefix is cut out, from left to right, and the pieces between stay. *)
Theorem C37_pieces_partial : forall T text, t_uid T <> [] ->
  exists first rest, tidy (if t_restricted T then entities false text else text) = first ++ List.concat (map (fun p => t_uid T ++ p) rest) /\
  prepare T text = first ++ List.concat rest /\ forall p, In p (first :: rest) -> token_free T p.
Proof. exact prepared_pieces. Qed.
Print Assumptions C37_pieces_partial.
(** Otherwise what is left may contain it. *)
Theorem C37_nested_refuted : prepare T0 (u "textileReftextileRef:abc::abc:9:shelve") = u "textileRef:abc:9:shelve".
Proof. vm_compute. reflexivity. Qed.
Print Assumptions C37_nested_refuted.
Example C37_example : set_apart (t_uid T0) (tidy (u "textileRef:abc: (textileRef:abc:1:url)")) /\
  prepare T0 (u "textileRef:abc: (textileRef:abc:1:url)") = u " (1:url)".
Proof.
  split; [|vm_compute; reflexivity]. apply set_apart_iff; [vm_compute; discriminate|]. vm_compute. reflexivity.
Qed.

(** ** C38: no placeholder is shown *)
Theorem C38_plain_partial : forall W T fuel bs, ready T -> (1 < fuel)%nat -> (forall b, In b bs -> proper T b) ->
  exists h s, parse W T fuel [] (sections (map source bs)) = Ret h s /\ token_free T h.
Proof. exact no_leak. Qed.
Print Assumptions C38_plain_partial.
Theorem C38_forged_refuted : html_of T0 (u "textileReftextileRef:abc::abc:9:shelve") = Some (u "<p>textileRef:abc:9:shelve</p>").
Proof. vm_compute. reflexivity. Qed.
Print Assumptions C38_forged_refuted.
(** Without forging: a mark of a link start is shown. *)
Theorem C38_marker_refuted : html_of T0 (u """a"":/b""c"":d") = Some (u "<p><a href=""/btextileRef:abc:linkStartMarker"">a</a>:&#8220;c&#8221;:d</p>").
Proof. vm_compute. reflexivity. Qed.
Print Assumptions C38_marker_refuted.
Example C38_example : html_of T0 (u "bc. a < b") = Some (u "<pre><code>a &lt; b</code></pre>") /\
  token_free T0 (u "<pre><code>a &lt; b</code></pre>").
Proof. split; [vm_compute; reflexivity|]. apply contains_free. vm_compute. reflexivity. Qed.

(** ** C62: the number of steps allowed does not matter *)
Theorem C62_more_steps : forall W T n m c t, (n <= m)%nat -> parse W T n c t <> Diverge -> parse W T m c t = parse W T n c t.
Proof. exact steps_irrelevant. Qed.
Print Assumptions C62_more_steps.
Theorem C62_agreement : forall W T n m c t, parse W T n c t <> Diverge -> parse W T m c t <> Diverge -> parse W T n c t = parse W T m c t.
Proof. exact steps_agree. Qed.
Print Assumptions C62_agreement.
Example C62_example : parse W0 T0 2 [] (u "*a* ""b"":c") <> Diverge /\ parse W0 T0 0 [] (u "*a* ""b"":c") = Diverge.
Proof. split; [vm_compute; discriminate|reflexivity]. Qed.
