(** The references of footnotes in any text. *)
From Verif Require Import Str Unicode ModelBase SpecFootnotes.

(** ** Where they are: after a character that is not a white space, a bracket, digits (of any
    script, fractions and the like included), an exclamation mark or not, a bracket; a white space
    after it belongs to it. *)
Definition numeric (c : N) : bool := rmem tab_N c.
Fixpoint numerals (t : str) : str * str :=
  match t with c :: t' => if numeric c then let (n, r) := numerals t' in (c :: n, r) else ([], t) | [] => ([], []) end.
Definition bracket_closes (n : str) (plain : bool) (t : str) : option (str * bool * str) :=
  match t with c :: r => if c =? 93 then Some (n, plain, r) else None | [] => None end.
Definition reference_at (t : str) : option (str * bool * str) :=
  match t with
  | c :: t' =>
      let (n, r) := numerals t' in
      if (c =? 91) && negb (is_empty n) then
        match r with d :: r' => if d =? 33 then bracket_closes n true r' else bracket_closes n false r | [] => None end
      else None
  | [] => None
  end.
Definition blank_after (t : str) : str := match t with c :: _ => if is_ws c then [c] else [] | [] => [] end.
Inductive token := Char (d : N) | Ref (r : reference).
(** [solid]: there is a character before, and it is not a white space. *)
Fixpoint tokens_of (n : nat) (solid : bool) (t : str) : list token :=
  match n, t with
  | S n', d :: t' =>
      match (if solid then reference_at t else None) with
      | Some (k, plain, r) => Ref (k, plain, blank_after r) :: tokens_of n' (is_empty (blank_after r)) (skipn (List.length (blank_after r)) r)
      | None => Char d :: tokens_of n' (negb (is_ws d)) t'
      end
  | _, _ => []
  end.
Definition tokens (t : str) : list token := tokens_of (List.length t) false t.
Definition token_source (x : token) : str := match x with Char d => [d] | Ref r => reference_source r end.

(** ** What is shown *)
Section Shown.
Variable prefix : str.
Fixpoint tokens_html (l : list token) (c : table) : str * table :=
  match l with
  | [] => ([], c)
  | Char d :: l' => let (y, c2) := tokens_html l' c in (d :: y, c2)
  | Ref r :: l' => let (x, c1) := reference_html prefix r c in let (y, c2) := tokens_html l' c1 in (x ++ y, c2)
  end.
(** The state in which the identifiers in use are those of a table. *)
Definition with_table (c : table) (s : pstate) : pstate :=
  set_footnotes (map (fun e => (fst e, name prefix (snd e))) (fst c)) (set_link_index (snd c) s).
End Shown.
