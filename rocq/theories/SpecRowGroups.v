(** The lines that start the head, the foot or a body of a table. *)
From Verif Require Import Str SpecTables.
Definition group_row (g : group) (row : str) : str := u "|" ++ [group_mark g] ++ u "." ++ nl ++ row.
(** The element of a finished group. *)
Definition group_element (g : group) (rows : list str) : str :=
  nl ++ tab ++ u "<" ++ group_name g ++ u ">" ++ List.concat rows ++ nl ++ tab ++ u "</" ++ group_name g ++ u ">".
