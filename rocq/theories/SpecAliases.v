(** The definitions of aliases in any text. *)
From Verif Require Import Str Unicode ModelBase SpecGlyphRules SpecQuoted.

(** ** Where they are: at the start of the text or after a blank, an alias in square brackets, then an
    address.  The alias is anything within the line, as long as possible; the address is all up to the next
    blank or the end, and starts with one of the [beginnings], with more to follow.  Only the last scheme
    needs a colon and slashes, as the source joins the schemes without a group around them. *)
Fixpoint after (p t : str) : option str :=
  match p, t with
  | [], _ => Some t
  | c :: p', d :: t' => if c =? d then after p' t' else None
  | _, [] => None
  end.
Definition beginnings (restricted : bool) : list str :=
  if restricted then [u "http"; u "https"; u "ftp"; u "mailto://"; u "/"]
  else [u "http"; u "https"; u "ftp"; u "mailto"; u "file"; u "tel"; u "callto"; u "sftp"; u "data://"; u "/"].
Definition solid (c : N) : bool := negb (is_ws c).
Definition address_at (ps : list str) (t : str) : option (str * str) :=
  if existsb (fun p => match after p t with Some (c :: _) => solid c | _ => false end) ps then Some (run solid t) else None.
Definition closed_at (ps : list str) (t : str) : option (str * str) :=
  match t with c :: t' => if c =? 93 then address_at ps t' else None | [] => None end.
Definition blank_before (prev : option N) : bool := match prev with None => true | Some c => is_ws c end.
Definition def_at (ps : list str) (prev : option N) (t : str) : option (str * str * str) :=
  match t with
  | b :: d :: t' =>
      if blank_before prev && (b =? 91) && negb (d =? 10) then
        let (w, r) := run (fun c => negb (c =? 10)) t' in
        first_of (fun x : str * str => option_map (fun y : str * str => (d :: fst x, fst y, snd y)) (closed_at ps (snd x ++ r))) (cuts w)
      else None
  | _ => None
  end.
Inductive part := Kept (c : N) | Def (alias url : str).
Fixpoint parts_of (ps : list str) (n : nat) (prev : option N) (t : str) : list part :=
  match n, t with
  | S n', d :: t' =>
      match def_at ps prev t with
      | Some (a, url, r) => Def a url :: parts_of ps n' (Some (last url 0)) r
      | None => Kept d :: parts_of ps n' (Some d) t'
      end
  | _, _ => []
  end.
Definition parts (restricted : bool) (t : str) : list part := parts_of (beginnings restricted) (List.length t) None t.
Definition part_source (x : part) : str := match x with Kept c => [c] | Def a url => 91 :: a ++ 93 :: url end.

(** ** What becomes of them: they are left out of the text and remembered.  In restricted mode the text was
    escaped before; the address is turned back, and fails at an escaped ampersand. *)
Definition kept (l : list part) : str := flat_map (fun x => match x with Kept c => [c] | Def _ _ => [] end) l.
Definition escapes : list (str * option N) :=
  [(u "&amp;", None); (u "&lt;", Some 60); (u "&gt;", Some 62); (u "&quot;", Some 34); (u "&#39;", Some 39); (u "&#13;", Some 10); (u "&#10;", Some 13); (u "&#9;", Some 9)].
Definition escape_at (t : str) : option (option N * str) := first_of (fun e : str * option N => option_map (fun r => (snd e, r)) (after (fst e) t)) escapes.
Fixpoint unescaped_of (n : nat) (t : str) : option str :=
  match n, t with
  | S n', d :: t' =>
      match escape_at t with
      | Some (Some c, r) => option_map (cons c) (unescaped_of n' r)
      | Some (None, _) => None
      | None => option_map (cons d) (unescaped_of n' t')
      end
  | _, _ => Some []
  end.
Definition unescaped (t : str) : option str := unescaped_of (List.length t) t.
Fixpoint definitions (restricted : bool) (l : list part) : option (list (str * str)) :=
  match l with
  | Kept _ :: l' => definitions restricted l'
  | Def a url :: l' =>
      match (if restricted then unescaped url else Some url) with
      | Some v => option_map (cons (a, v)) (definitions restricted l')
      | None => None
      end
  | [] => Some []
  end.
Definition remember (s : pstate) (d : str * str) : pstate := set_urlrefs (im_insert (fst d) (Raw (snd d)) (ps_urlrefs s)) s.
