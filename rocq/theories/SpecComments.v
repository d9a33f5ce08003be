(** A comment between blocks of any kind. *)
From Verif Require Import Str Unicode ModelBase ModelAttrs SpecNewlines SpecPlain SpecDoc SpecAtts SpecSigned.

(** A block without blank lines and without placeholders, any markup. *)
Definition any_block (T : textile) (x : str) : Prop := code_text x /\ token_free T x /\ exists c, In c x /\ is_ws c = false.
(** The block starts with a signature. *)
Definition starts_signed (T : textile) (x : str) : Prop :=
  exists g l t, sig_ok T g l /\ closed l t /\ (x = sig_name g ++ items_text l ++ u ". " ++ t \/ x = sig_name g ++ items_text l ++ u ".. " ++ t).
Definition no_dots (x : str) : Prop := forall a b, x <> a ++ u ".." ++ b.
(** A comment ends a part with further blocks, so what follows must not belong to such a part. *)
Definition may_follow (T : textile) (xs ys : list str) : Prop :=
  match ys with [] => True | y :: _ => starts_signed T y \/ forall x, In x xs -> no_dots x end.
