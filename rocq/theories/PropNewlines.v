(** Theorems about line ends. *)
From Verif Require Import Str ModelBase ModelParser SpecParse SpecNewlines ProofNewlines Samples.

(** C39: the result depends on the tidied document only. *)
Theorem C39_tidied : forall W T fuel c a b, ~ blank a -> tidy a = tidy b ->
  parse W T fuel c a = parse W T fuel c b.
Proof. exact parse_tidy. Qed.
Print Assumptions C39_tidied.

(** C39: CR LF and CR are line ends like LF. *)
Theorem C39_line_ends : forall W T fuel c ls e, e = [13; 10] \/ e = [13] ->
  plain_lines ls -> ~ blank (ended [10] ls) ->
  parse W T fuel c (ended e ls) = parse W T fuel c (ended [10] ls).
Proof. exact line_ends. Qed.
Print Assumptions C39_line_ends.

(** C39: a line of blanks and tabs is an empty line. *)
Theorem C39_blank_lines : forall W T fuel c a l b, blank_line l = true -> ~ blank (a ++ b) ->
  parse W T fuel c (a ++ [10] ++ l ++ [10] ++ b) = parse W T fuel c (a ++ [10] ++ [10] ++ b).
Proof. exact blank_between. Qed.
Print Assumptions C39_blank_lines.

(** C39: outer newlines are ignored, unless the text ends in a line of blanks. *)
Theorem C39_outer_newlines_partial : forall W T fuel c n t k, ~ blank t ->
  blank_line (last_line t) = false \/ last_line t = [] ->
  parse W T fuel c (newlines n ++ t ++ newlines k) = parse W T fuel c t.
Proof. exact outer_newlines. Qed.
Print Assumptions C39_outer_newlines_partial.
(** Otherwise a newline at the end changes the result. *)
Theorem C39_last_blanks_refuted :
  html_of T0 (u "foo" ++ [10] ++ u "  ") = Some (u "<p>foo" ++ [10] ++ u "  </p>") /\
  html_of T0 (u "foo" ++ [10] ++ u "  " ++ [10]) = Some (u "<p>foo</p>").
Proof. split; vm_compute; reflexivity. Qed.
Print Assumptions C39_last_blanks_refuted.

Example C39_example : plain_lines [u "a"; []; u "* b"] /\ ended [13; 10] [u "a"; []; u "* b"] = u "a" ++ [13; 10; 13; 10] ++ u "* b" /\
  tidy ([13; 10] ++ u "a" ++ [13] ++ u " " ++ [9; 10] ++ u " b" ++ [10]) = u "a" ++ [10; 10] ++ u " b" /\
  last_line (u "a" ++ [13] ++ u "b") = u "b".
Proof. split; [|vm_compute; auto]. intros l [<-|[<-|[<-|[]]]]; vm_compute; intuition discriminate. Qed.
Example C39_example_html : html_of T0 (u "a" ++ [13; 10; 13; 10] ++ u "* b") = Some (u "<p>a</p>" ++ [10; 10] ++ u "<ul>" ++ [10; 9] ++ u "<li>b</li>" ++ [10] ++ u "</ul>").
Proof. vm_compute. reflexivity. Qed.
