(** The newlines in paragraphs and headings, in any text. *)
From Verif Require Import Str Unicode ModelBase.

(** ** Where they are broken: a newline after which neither a white space nor a bar stands *)
Definition keeps (t : str) : bool := match t with c :: _ => is_ws c || (c =? 124) | [] => false end.
Section Break.
Variable br : str.
Fixpoint break_lines (t : str) : str :=
  match t with c :: t' => (if (c =? 10) && negb (keeps t') then br else [c]) ++ break_lines t' | [] => [] end.
End Break.

(** ** Break tags in front of such a newline are dropped, with the white space between them *)
Fixpoint spaces_off (t : str) : str := match t with c :: t' => if c =? 32 then spaces_off t' else t | [] => [] end.
Definition slash_off (t : str) : str := match t with c :: t' => if c =? 47 then t' else t | [] => [] end.
Definition break_tag_at (t : str) : option str :=
  match t with
  | a :: b :: c :: t' =>
      if (a =? 60) && ((b =? 98) || (b =? 66)) && ((c =? 114) || (c =? 82)) then
        match slash_off (spaces_off t') with d :: r => if d =? 62 then Some r else None | [] => None end
      else None
  | _ => None
  end.
Fixpoint white (t : str) : str * str :=
  match t with c :: t' => if is_ws c then let (w, r) := white t' in (c :: w, r) else ([], t) | [] => ([], []) end.
Definition ends_line (w : str) : bool := match rev w with c :: _ => c =? 10 | [] => false end.
Definition broken_line_at (t : str) : option str :=
  match break_tag_at t with
  | Some r => let (w, r') := white r in if ends_line w && negb (keeps r') then Some r' else None
  | None => None
  end.
Fixpoint drop_breaks_of (n : nat) (t : str) : str :=
  match n, t with
  | S n', c :: t' => match broken_line_at t with Some r => 10 :: drop_breaks_of n' r | None => c :: drop_breaks_of n' t' end
  | _, _ => []
  end.
Definition drop_breaks (t : str) : str := drop_breaks_of (List.length t) t.

(** ** Where this is done: from a tag [<p…>] or [<h1…>] to [<h6…>] to the last end tag of that name *)
Definition named (t : str) : option (str * str) :=
  match t with
  | c :: t' =>
      if c =? 112 then Some ([c], t')
      else match t' with d :: t'' => if (c =? 104) && (49 <=? d) && (d <=? 54) then Some ([c; d], t'') else None | [] => None end
  | [] => None
  end.
Fixpoint to_bracket (t : str) : option (str * str) :=
  match t with
  | c :: t' => if c =? 62 then Some ([], t') else match to_bracket t' with Some (a, r) => Some (c :: a, r) | None => None end
  | [] => None
  end.
Definition end_tag (name : str) : str := u "</" ++ name ++ u ">".
Fixpoint to_last (e t : str) : option (str * str) :=
  match t with
  | c :: t' => match to_last e t' with
               | Some (x, r) => Some (c :: x, r)
               | None => if starts_with e t then Some ([], skipn (List.length e) t) else None
               end
  | [] => None
  end.
(** The name, the attributes, the content and what follows. *)
Definition paragraph_at (t : str) : option (str * str * str * str) :=
  match t with
  | c :: t' =>
      if c =? 60 then
        match named t' with
        | Some (name, t1) =>
            match to_bracket t1 with
            | Some (att, t2) => match to_last (end_tag name) t2 with Some (x, r) => Some (name, att, x, r) | None => None end
            | None => None
            end
        | None => None
        end
      else None
  | [] => None
  end.
Section Shown.
Variable br : str.
Fixpoint broken_of (n : nat) (t : str) : str :=
  match n, t with
  | S n', c :: t' =>
      match paragraph_at t with
      | Some (name, att, x, r) => u "<" ++ name ++ att ++ u ">" ++ break_lines br (drop_breaks x) ++ end_tag name ++ broken_of n' r
      | None => c :: broken_of n' t'
      end
  | _, _ => []
  end.
Definition broken (t : str) : str := broken_of (List.length t) t.
End Shown.
