(** Theorems about inline spans. *)
From Coq Require Import Lia ZArith.
From Verif Require Import Str Regex RegexAuto ModelBase ModelParser SpecPlain SpecDoc SpecText SpecSpans ProofDocument ProofSpanPage Samples.

(** ** C53: spans *)
(** A paragraph with any number of spans, each with one of the ten marks. *)
Theorem C53_spans_partial : forall W T fuel a l, ready T -> 1 <= t_max_span_depth T -> (0 < fuel)%nat ->
  with_spans (t_lite T) a l -> 2 * N.of_nat (List.length l) <= u32_max ->
  exists s, parse W T fuel [] (spans_text a l) = Ret (spans_html (line_break T) a l) s.
Proof. exact spans_parse. Qed.
Print Assumptions C53_spans_partial.
(** In lite mode a span before the last full stop of the text is not recognised. *)
Theorem C53_refuted : html_of T0 (u "So *it is*.") = Some (u "<p>So <strong>it is</strong>.</p>") /\
  html_of (set_lite true T0) (u "So *it is*.") = Some (u "<p>So *it is*.</p>").
Proof. split; vm_compute; reflexivity. Qed.
Print Assumptions C53_refuted.
Definition sample_spans : list marking :=
  [mk_marking (u "**") (u "b") (u "one") (u ", "); mk_marking (u "*") (u "strong") (u "two words") (u " and "); mk_marking (u "??") (u "cite") (u "Title") (u ": ");
   mk_marking (u "-") (u "del") (u "gone") ([10] ++ u "then "); mk_marking (u "__") (u "i") (u "i2") (u "; "); mk_marking (u "_") (u "em") (u "never") (u "! So "); mk_marking (u "%") (u "span") (u "x") (u " ");
   mk_marking (u "+") (u "ins") (u "new") ([10]); mk_marking (u "~") (u "sub") (u "low") (u " or "); mk_marking (u "^") (u "sup") (u "high") (u ".")].
Example C53_example : ready T0 /\ 1 <= t_max_span_depth T0 /\ with_spans false (u "Here: ") sample_spans /\ 2 * N.of_nat (List.length sample_spans) <= u32_max /\
  spans_text (u "Here: ") sample_spans = u "Here: **one**, *two words* and ??Title??: -gone-" ++ [10] ++ u "then __i2__; _never_! So %x% +new+" ++ [10] ++ u "~low~ or ^high^." /\
  html_of T0 (u "*one* and" ++ [10] ++ u "_two_") = Some (u "<p><strong>one</strong> and<br>" ++ [10] ++ u "<em>two</em></p>") /\
  html_of T0 (u "2 * 3 * 4") = Some (u "<p>2 * 3 * 4</p>").
Proof.
  split; [|split; [|split; [|split; [|split; [|split]]]]]; [|vm_compute; discriminate| |vm_compute; discriminate|vm_compute; reflexivity..].
  - split; [|split; reflexivity]. exists (u "abc"). split; [reflexivity|]. intros c [<-|[<-|[<-|[]]]]; vm_compute; tauto.
  - split; [apply runs_accepts; vm_compute; reflexivity|]. unfold sample_spans, spans_follow. cbn [k_mark k_tag k_text k_after].
    repeat (split; [unfold spans; cbn [In]; tauto|split; [apply runs_accepts; vm_compute; reflexivity|split; [apply runs_accepts; vm_compute; reflexivity|]]]).
    split; [unfold spans; cbn [In]; tauto|split; apply runs_accepts; vm_compute; reflexivity].
Qed.
