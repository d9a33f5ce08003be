(** Fragments of a text between an opening and a closing mark. *)
From Verif Require Import Str Unicode ModelBase SpecPlain SpecState.

(** ** Where they are.
    A fragment starts at the start of a line, or after a white space or one of [ [({>| ]; it ends
    at the first closing mark.  One closing bracket right after it belongs to it. *)
Definition may_precede (d : N) : bool := is_ws d || existsb (N.eqb d) (u "[({>|").
Definition bracket_after (t : str) : str := match t with d :: _ => if existsb (N.eqb d) (u "])}") then [d] else [] | [] => [] end.
Section Marks.
Variables opening closing : str.
(** The text before the first closing mark, and the text after it. *)
Fixpoint up_to (t : str) : option (str * str) :=
  if starts_with closing t then Some ([], skipn (List.length closing) t)
  else match t with [] => None | c :: t' => option_map (fun p => (c :: fst p, snd p)) (up_to t') end.
(** A fragment at the start of [t]: its content, the bracket after it, and the rest. *)
Definition fragment_at (t : str) : option (str * str * str) :=
  if starts_with opening t then
    match up_to (skipn (List.length opening) t) with
    | Some (c, r) => Some (c, bracket_after r, skipn (List.length (bracket_after r)) r)
    | None => None
    end
  else None.
(** A character of the text, or a fragment with the character before it and the bracket after it. *)
Inductive part := Other (d : N) | Marked (before c after : str).
Fixpoint parts_of (n : nat) (line_start : bool) (t : str) : list part :=
  match n, t with
  | S n', d :: t' =>
      match (if line_start then fragment_at t else None) with
      | Some (c, a, r) => Marked [] c a :: parts_of n' false r
      | None =>
          match (if may_precede d then fragment_at t' else None) with
          | Some (c, a, r) => Marked [d] c a :: parts_of n' false r
          | None => Other d :: parts_of n' (d =? 10) t'
          end
      end
  | _, _ => []
  end.
Definition parts (t : str) : list part := parts_of (List.length t) true t.
Definition part_source (p : part) : str := match p with Other d => [d] | Marked b c a => b ++ opening ++ c ++ closing ++ a end.
End Marks.

(** ** What becomes of them: the content is put on the shelf, under the next number. *)
Definition contents (l : list part) : list str := flat_map (fun p => match p with Other _ => [] | Marked _ c _ => [c] end) l.
Section Shown.
Variable T : textile.
(** [form before after token] stands in the text instead of the fragment. *)
Fixpoint shown (form : str -> str -> str -> str) (n : N) (l : list part) : str :=
  match l with
  | [] => []
  | Other d :: l' => d :: shown form n l'
  | Marked b c a :: l' => form b a (fragment_token T (n + 1)) ++ shown form (n + 1) l'
  end.
Definition set_aside (xs : list str) (s : pstate) : pstate :=
  fold_left (fun s x => set_shelf (im_insert (fragment_token T (ps_ref_index s + 1)) x (ps_shelf s)) (set_ref_index (ps_ref_index s + 1) s)) xs s.
End Shown.
(** Square brackets around a fragment are dropped, others are kept. *)
Definition in_brackets (b a : str) : bool := seqb b (u "[") && seqb a (u "]").
Definition between (x y : str) (b a token : str) : str := if in_brackets b a then x ++ token ++ y else b ++ x ++ token ++ y ++ a.
(** A comment stays where it is; a bracket after it is lost. *)
Definition comment_form (b a token : str) : str := b ++ u "<!--" ++ token ++ u "-->".
(** One step: all fragments between the two marks. *)
Definition marks_step (T : textile) (opening closing : str) (stored : str -> str) (form : str -> str -> str -> str) (ts : str * pstate) : str * pstate :=
  (shown T form (ps_ref_index (snd ts)) (parts opening closing (fst ts)), set_aside T (map stored (contents (parts opening closing (fst ts)))) (snd ts)).
