(** Line breaks in list items, definitions and cells, in any text of ASCII characters. *)
From Verif Require Import Str Unicode.
Definition ascii (t : str) : Prop := forall c, In c t -> c < 128.

(** A break tag goes before every newline, but not if a blank or a bar follows, nor after one of these
    tags, in either case of letters. *)
Definition ends_of_line : list str := [u "</dd>"; u "</dt>"; u "</li>"; u "<br/>"; u "<br>"; u "<br />"].
Definition small (c : N) : N := if (65 <=? c) && (c <=? 90) then c + 32 else c.
Definition ends_like (w p : str) : bool := seqb (map small (skipn (List.length w - List.length p) w)) p.
Definition holds_back (t : str) : bool := match t with c :: _ => is_ws c || (c =? 124) | [] => false end.
Section Breaks.
Variable br : str.
Fixpoint lines_broken (before t : str) : str :=
  match t with
  | c :: t' =>
      (if (c =? 10) && negb (holds_back t' || existsb (ends_like before) ends_of_line) then br else []) ++ c :: lines_broken (before ++ [c]) t'
  | [] => []
  end.
End Breaks.
