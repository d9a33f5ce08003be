(** Theorems about inline code. *)
From Verif Require Import Str Unicode RegexAuto ModelBase ModelParser SpecPlain SpecDoc SpecSigned SpecCode ProofDocument ProofSignedTop ProofCodeTop Samples.

(** ** C65: inline code and fragments that are not touched *)
Theorem C65_inline_code : forall W T fuel ps, ready T -> t_lite T = false -> (1 < fuel)%nat -> (forall p, In p ps -> coded_ok T p) ->
  exists s, parse W T fuel [] (sections (map coded_text ps)) = Ret (sections (map (coded_html T (line_break T)) ps)) s.
Proof. exact inline_code. Qed.
Print Assumptions C65_inline_code.
Definition C65_paras : list coded :=
  [(u "Use ", [(InlineCode (u "*a* < b"), u ", then" ++ [10]); (InlineRaw (u "<b>_x_</b> ""q"""), u " or "); (InlineCode (u "p. (c)"), u ".")]);
   ([], [(InlineRaw (u "|a|"), [])]);
   (u "End", [])].
Example C65_example : ready T0 /\ t_lite T0 = false /\ (forall p, In p C65_paras -> coded_ok T0 p) /\
  html_of T0 (sections (map coded_text C65_paras)) =
  Some (sections [u "<p>Use <code>*a* &lt; b</code>, then<br>" ++ [10] ++ u "<b>_x_</b> ""q"" or <code>p. (c)</code>.</p>"; u "<p>|a|</p>"; u "<p>End</p>"]).
Proof.
  split; [exact plain_ready|]. split; [reflexivity|]. split.
  - assert (forall A t, ProofDocument.runs A [au_start A] t = true -> accepts A t) as P by (intros; apply runs_accepts; assumption).
    pose proof (fun t => uid_absent T0 t) as F.
    assert (forall w t, Str.contains w t = false -> ~ within_text w t) as N by (intros w t; apply contains_within).
    assert (forall x t, existsb (N.eqb x) t = false -> ~ In x t) as I by (intros x t; apply absent_char).
    intros p Hp. repeat (destruct Hp as [<-|Hp]); [..|destruct Hp]; unfold coded_ok; cbn [fst snd].
    + split; [apply P; vm_compute; reflexivity|]. cbn [fragments_follow fragment_ok].
      split; [|split; [apply P; vm_compute; reflexivity|]]; [|split; [|split; [apply P; vm_compute; reflexivity|]]; [|split; [|apply P; vm_compute; reflexivity]]].
      all: split; [discriminate|]; split; [apply I; reflexivity|]; split; [apply I; reflexivity|]; split; [apply F; vm_compute; reflexivity|].
      * split; [apply I; reflexivity|]. split; [apply N; vm_compute; reflexivity|]. split; apply N; vm_compute; reflexivity.
      * split; [apply N; vm_compute; reflexivity|]. split; [apply N; vm_compute; reflexivity|]. apply no_br_dec. vm_compute. reflexivity.
      * split; [apply I; reflexivity|]. split; [apply N; vm_compute; reflexivity|]. split; apply N; vm_compute; reflexivity.
    + split; [apply P; vm_compute; reflexivity|]. cbn [fragments_follow fragment_ok]. split; [|apply P; vm_compute; reflexivity].
      split; [discriminate|]. split; [apply I; reflexivity|]. split; [apply I; reflexivity|]. split; [apply F; vm_compute; reflexivity|].
      split; [apply N; vm_compute; reflexivity|]. split; [apply N; vm_compute; reflexivity|]. apply no_br_dec. vm_compute. reflexivity.
    + apply P. vm_compute. reflexivity.
  - vm_compute. reflexivity.
Qed.
(** A mark within code ends it; code in code is taken first; in restricted mode code is escaped twice. *)
Example C65_limits :
  html_of T0 (u "Use @x <code>y</code> z@.") = Some (u "<p>Use <code>x <code>y</code> z</code>.</p>") /\
  html_of (set_restricted true T0) (u "Use @a<b@.") = Some (u "<p>Use <code>a&amp;lt;b</code>.</p>").
Proof. split; vm_compute; reflexivity. Qed.
