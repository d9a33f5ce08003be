(** Property C84: how a text is divided into blocks. *)
From Verif Require Import Str RegexSnips ModelBase ModelParser Samples SpecDivide ProofDivide.

(** ** C84: every text is divided into blocks at, and only at, the runs of two or more newlines,
    each taken as a whole; nothing is lost, and this never fails. *)
Theorem C84_division : forall t s, exists l, splitM MULTI_ENDLINE_RE t s = Ret l s /\ in_turn true l /\ List.concat l = t.
Proof. exact divided. Qed.
Print Assumptions C84_division.
(** There is no other such division. *)
Theorem C84_unique : forall l l', in_turn true l -> in_turn true l' -> List.concat l = List.concat l' -> l = l'.
Proof. exact division_unique. Qed.
Print Assumptions C84_unique.
Example C84_example : splitM MULTI_ENDLINE_RE (u "a
b


c

") (new_state []) = Ret [u "a
b"; u "


"; u "c"; u "

"; []] (new_state []) /\ gap (u "


") /\ opens_line (u "c") /\ ~ ends_line (u "c").
Proof.
  split; [vm_compute; reflexivity|]. split; [exists 1%nat; reflexivity|]. split; [exists 99, []; split; [reflexivity|discriminate]|]. intros ([|x [|y r]] & F); discriminate F.
Qed.
