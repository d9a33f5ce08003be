(** C75, C76: footnotes. *)
From Verif Require Import Str Regex RegexAuto ModelBase ModelHtml ModelInline ModelParser Samples SpecPlain SpecNewlines SpecDoc SpecLists SpecFootnotes ProofDocument ProofFootnotes ProofFootKept.

(** ** C75: the whole result of documents of lines with references and of footnotes. *)
Theorem C75_footnotes : forall W T fuel l, ready T -> t_lite T = false -> prefix_ok (t_link_prefix T) -> (0 < fuel)%nat -> Forall proper_passage l ->
  exists s, parse W T fuel [] (sections (map passage_source l)) = Ret (sections (passages_html (t_link_prefix T) l ([], 0))) s.
Proof. exact (fun W T fuel l H1 H2 H3 => footnotes_document W T (proj1 H1) H2 H3 fuel l H1). Qed.
Print Assumptions C75_footnotes.

(** References with and without a link, once more to the same footnote, and to a footnote that does not follow; a footnote without a reference. *)
Definition C75_doc : list passage :=
  [Line (u "Foo bar") [(u "1", false, u " baz"); (u "1", true, u ", qux"); (u "2", false, []); (u "3", true, u ". x"); (u "44", false, [])];
   Footnote (u "2") true (u "foo x"); Footnote (u "3") false (u "x bar, 1st of all."); Footnote (u "5") false (u "Foo, bar"); Line (u "Some words") [(u "10", false, u " x 5"); (u "2", false, u "!")]].
Example C75_example : prefix_ok (t_link_prefix T0) /\ Forall proper_passage C75_doc /\
  map passage_source C75_doc = [u "Foo bar[1] baz[1!], qux[2][3!]. x[44]"; u "fn2^. foo x"; u "fn3. x bar, 1st of all."; u "fn5. Foo, bar"; u "Some words[10] x 5[2]!"] /\
  passages_html (t_link_prefix T0) C75_doc ([], 0) =
  [u "<p>Foo bar<sup class=""footnote"" id=""fnrevabc-1""><a href=""#fnabc-1"">1</a></sup> baz<sup class=""footnote"">1</sup>, qux<sup class=""footnote"" id=""fnrevabc-2""><a href=""#fnabc-2"">2</a></sup><sup class=""footnote"" id=""fnrevabc-3"">3</sup>. x<sup class=""footnote"" id=""fnrevabc-4""><a href=""#fnabc-4"">44</a></sup></p>";
   u "<p class=""footnote"" id=""fnabc-2""><sup><a href=""#fnrevabc-2"">2</a></sup> foo x</p>"; u "<p class=""footnote"" id=""fnabc-3""><sup>3</sup> x bar, 1st of all.</p>";
   u "<p class=""footnote"" id=""fnabc-5""><sup>5</sup> Foo, bar</p>"; u "<p>Some words<sup class=""footnote"" id=""fnrevabc-6""><a href=""#fnabc-6"">10</a></sup> x 5<sup class=""footnote""><a href=""#fnabc-2"">2</a></sup>!</p>"].
Proof.
  assert (forall A t, ProofDocument.runs A [au_start A] t = true -> accepts A t) as P by (intros; apply runs_accepts; assumption).
  assert (forall n, negb (seqb n []) && forallb (fun c => (48 <=? c) && (c <=? 57)) n = true -> footnote_number n) as N.
  { intros n H. apply andb_prop in H. destruct H as [H1 H2]. split; [intros ->; discriminate|]. intros c Hc. rewrite forallb_forall in H2. specialize (H2 c Hc). apply andb_prop in H2. destruct H2 as [H2 H3]. apply N.leb_le in H2, H3. split; assumption. }
  split; [|split; [|split; vm_compute; reflexivity]].
  - assert (forallb (fun c => existsb (N.eqb c) (u "abcdefghijklmnopqrstuvwxyzABCDEFGHIJKLMNOPQRSTUVWXYZ0123456789-")) (t_link_prefix T0) = true) as H by (vm_compute; reflexivity).
    intros c Hc. rewrite forallb_forall in H. specialize (H c Hc). apply existsb_exists in H. destruct H as (x & Hx & E). apply N.eqb_eq in E. subst x. exact Hx.
  - repeat (apply Forall_cons; [cbn [proper_passage proper_references]; repeat (match goal with |- footnote_number _ => apply N; vm_compute; reflexivity | |- accepts _ _ => apply P; vm_compute; reflexivity | |- True => exact I | |- _ /\ _ => split end)|]). apply Forall_nil.
Qed.
(** Why there are no exclamation marks before references: the marks are those of an image. *)
Example C75_image : html_of T0 (u "Stop![1!] foo") = Some (u "<p>Stop<img alt="""" src=""[1"" /> foo</p>").
Proof. vm_compute. reflexivity. Qed.

(** ** C76: references lead to their footnotes.
    What holds: for the documents of C75, a reference with a link, and the footnote of its number somewhere after it, share an identifier.
    Missing: other documents. *)
Theorem C76_links_meet_partial : forall W T fuel l html s, ready T -> t_lite T = false -> prefix_ok (t_link_prefix T) -> (0 < fuel)%nat -> Forall proper_passage l ->
  parse W T fuel [] (sections (map passage_source l)) = Ret html s ->
  forall a t rs b n w back t' d, l = a ++ Line t rs :: b ++ Footnote n back t' :: d -> In (n, false, w) rs ->
  exists i p q r, html = p ++ u "<a href=""#fn" ++ (t_link_prefix T ++ dec i) ++ u """>" ++ n ++ u "</a>" ++ q ++ u "<p class=""footnote"" id=""fn" ++ (t_link_prefix T ++ dec i) ++ u """>" ++ r.
Proof. exact footnotes_meet. Qed.
Print Assumptions C76_links_meet_partial.
Example C76_example : exists s, parse W0 T0 5 [] (sections (map passage_source C75_doc)) = Ret (sections (passages_html (t_link_prefix T0) C75_doc ([], 0))) s /\
  C75_doc = [] ++ Line (u "Foo bar") [(u "1", false, u " baz"); (u "1", true, u ", qux"); (u "2", false, []); (u "3", true, u ". x"); (u "44", false, [])] :: [] ++ Footnote (u "2") true (u "foo x") :: skipn 2 C75_doc.
Proof. eexists. split; [vm_compute; reflexivity|reflexivity]. Qed.
(** False in general: a footnote before its first reference is not found by it, and a number with two footnotes has two elements of one identifier. *)
Theorem C76_early_footnote_refuted : html_of T0 (u "fn1. Foo words" ++ nl ++ nl ++ u "Words[1] x") =
  Some (u "<p class=""footnote"" id=""fnabc-1""><sup>1</sup> Foo words</p>" ++ nl ++ nl ++ u "<p>Words<sup class=""footnote"" id=""fnrevabc-2""><a href=""#fnabc-2"">1</a></sup> x</p>").
Proof. vm_compute. reflexivity. Qed.
Print Assumptions C76_early_footnote_refuted.
Theorem C76_same_identifier_refuted : html_of T0 (u "Words[1] x" ++ nl ++ nl ++ u "fn1. Foo words" ++ nl ++ nl ++ u "fn1. Bar words") =
  Some (u "<p>Words<sup class=""footnote"" id=""fnrevabc-1""><a href=""#fnabc-1"">1</a></sup> x</p>" ++ nl ++ nl ++ u "<p class=""footnote"" id=""fnabc-1""><sup>1</sup> Foo words</p>" ++ nl ++ nl ++ u "<p class=""footnote"" id=""fnabc-1""><sup>1</sup> Bar words</p>").
Proof. vm_compute. reflexivity. Qed.
Print Assumptions C76_same_identifier_refuted.
