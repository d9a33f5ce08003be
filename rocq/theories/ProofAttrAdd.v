(** Attributes with optional values. *)
From Verif Require Import Str ModelBase ModelHtml ModelAttrs SpecAttrs ProofAttrs.
Lemma added_value k v l : increasing l -> increasing (attr_add k (Some v) l) /\
  forall k' v', In (k', v') (attr_add k (Some v) l) <-> (k' = k /\ v' = v) \/ (k' <> k /\ In (k', v') l).
Proof. intros H. split; [apply insert_increasing, H|]. intros k' v'. apply insert_mem, H. Qed.
