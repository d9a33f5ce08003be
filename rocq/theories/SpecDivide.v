(** How a text is divided into blocks: at the runs of two or more newlines. *)
From Verif Require Import Str.
Definition gap (g : str) : Prop := exists n, g = 10 :: 10 :: repeat 10 n.
Definition unbroken (p : str) : Prop := forall a b, p <> a ++ 10 :: 10 :: b.
Definition opens_line (p : str) : Prop := exists c r, p = c :: r /\ c <> 10.
Definition ends_line (p : str) : Prop := exists r, p = r ++ [10].
(** Blocks and the gaps between them, in turn; a gap is as long as possible.  Only the first and
    the last block may be empty. *)
Fixpoint in_turn (first : bool) (l : list str) : Prop :=
  match l with
  | [] => False
  | p :: l' =>
      unbroken p /\
      match l' with
      | [] => first = false -> p = [] \/ opens_line p
      | g :: l'' => (first = false -> opens_line p) /\ ~ ends_line p /\ gap g /\ in_turn false l''
      end
  end.
