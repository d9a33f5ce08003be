(** Lines of a document, independent of the parser. *)
From Verif Require Import Str.

(** Line ends: CR LF and CR count as LF. *)
Fixpoint unix (text : str) : str :=
  match text with
  | 13 :: ((10 :: rest) as rest') => unix rest'
  | 13 :: rest => 10 :: unix rest
  | c :: rest => c :: unix rest
  | [] => []
  end.
(** The lines; there is always one. *)
Fixpoint lines (text : str) : list str :=
  match text with
  | [] => [[]]
  | 10 :: rest => [] :: lines rest
  | c :: rest => match lines rest with [] => [[c]] | l :: ls => (c :: l) :: ls end
  end.
Fixpoint unlines (ls : list str) : str :=
  match ls with [] => [] | [l] => l | l :: rest => l ++ 10 :: unlines rest end.
Definition blank_line (l : str) : bool := forallb (fun c => (c =? 32) || (c =? 9)) l.
(** Empties the lines of blanks, except for a last line without line end. *)
Fixpoint blank_out (ls : list str) : list str :=
  match ls with
  | [] => []
  | [l] => [l]
  | l :: rest => (if blank_line l then [] else l) :: blank_out rest
  end.
Fixpoint no_leading (text : str) : str :=
  match text with 10 :: rest => no_leading rest | _ => text end.
Definition no_outer (text : str) : str := rev (no_leading (rev (no_leading text))).
(** The document without what should not matter. *)
Definition tidy (text : str) : str := no_outer (unlines (blank_out (lines (unix text)))).
(** [n] empty lines. *)
Definition newlines (n : nat) : str := repeat 10 n.
(** Lines without line ends in them, and such lines with the line end [e] between them. *)
Definition plain_lines (ls : list str) : Prop := forall l, In l ls -> ~ In 10 l /\ ~ In 13 l.
Fixpoint ended (e : str) (ls : list str) : str :=
  match ls with [] => [] | [l] => l | l :: rest => l ++ e ++ ended e rest end.
(** What follows the last line end. *)
Definition last_line (t : str) : str := List.last (lines (unix t)) [].
