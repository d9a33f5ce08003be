(** Property C91: the definitions of aliases. *)
From Verif Require Import Str ModelBase ModelHtml ModelInline ModelParser SpecAliases ProofAliases Samples.

(** ** C91: in every text and state the step finds exactly the definitions that [parts] tells, leaves them
    out and remembers them in their order.  It fails exactly if one of them, in restricted mode, holds an
    escaped ampersand. *)
Theorem C91_definitions : forall T t s,
  get_refs T t s = match definitions (t_restricted T) (parts (t_restricted T) t) with
  | Some ds => Ret (kept (parts (t_restricted T) t)) (fold_left remember ds s)
  | None => Panic UnknownEntity
  end.
Proof. exact refs_exact. Qed.
Print Assumptions C91_definitions.
(** What is left out and the characters between are the text. *)
Theorem C91_source : forall restricted t, flat_map part_source (parts restricted t) = t.
Proof. exact all_source. Qed.
Print Assumptions C91_source.
(** Turning escapes back, of every text; a carriage return and a newline change places. *)
Theorem C91_unescaped : forall t s, reverse_encode_html t s = match unescaped t with Some v => Ret v s | None => Panic UnknownEntity end.
Proof. exact unescape_exact. Qed.
Print Assumptions C91_unescaped.
Example C91_example :
  parts false (u "see [a]http://x/" ++ nl ++ u "or [b c]/d") = map Kept (u "see ") ++ [Def (u "a") (u "http://x/")] ++ map Kept (nl ++ u "or ") ++ [Def (u "b c") (u "/d")] /\
  kept (parts false (u "see [a]http://x/" ++ nl ++ u "or [b c]/d")) = u "see " ++ nl ++ u "or ".
Proof. split; vm_compute; reflexivity. Qed.
(** An alias reaches to the last bracket of the line that an address follows. *)
Example C91_greedy : parts false (u "[a]/x and [b]/y") = [Def (u "a]/x and [b") (u "/y")].
Proof. vm_compute. reflexivity. Qed.
(** A word that starts like a scheme is an address. *)
Example C91_scheme : parts false (u "[1]telephone") = [Def (u "1") (u "telephone")] /\ parts true (u "[1]httpd") = [Def (u "1") (u "httpd")] /\
  parts true (u "[1]mailto:me") = map Kept (u "[1]mailto:me") /\ parts false (u "x[1]telephone") = map Kept (u "x[1]telephone").
Proof. split; [|split; [|split]]; vm_compute; reflexivity. Qed.
Example C91_telephone : html_of T0 (u "Ask [1]telephone now.") = Some (u "<p>Ask  now.</p>").
Proof. vm_compute. reflexivity. Qed.
Example C91_restricted : definitions true (parts true (u "[a]/&lt;b&gt;")) = Some [(u "a", u "/<b>")] /\ definitions true (parts true (u "[a]/b&amp;c")) = None /\
  definitions false (parts false (u "[a]/b&amp;c")) = Some [(u "a", u "/b&amp;c")].
Proof. split; [|split]; vm_compute; reflexivity. Qed.
