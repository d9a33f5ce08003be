(** The typography of a whole text: tags are kept, the text between them is set. *)
From Verif Require Import Str Unicode ModelBase SpecGlyphRules.

(** ** Tags: '<', a letter or a digit or one of "/!?", and all up to the next '>' of the line *)
Definition tag_at (t : str) : option (str * str) :=
  match t with
  | b :: c :: t' =>
      let (w, r) := run (fun d => negb (d =? 10) && negb (d =? 62)) t' in
      match r with
      | e :: r' => if (b =? 60) && (word_char c || among (u "/!?") c) && (e =? 62) then Some (b :: c :: w ++ [e], r') else None
      | [] => None
      end
  | _ => None
  end.
(** What [f] makes of the texts between tags, and the tags. *)
Section Between.
Variable f : str -> str.
Fixpoint between_of (n : nat) (t before : str) : str :=
  match n, t with
  | S n', c :: t' =>
      match tag_at t with
      | Some (g, r) => f (rev before) ++ g ++ between_of n' r []
      | None => between_of n' t' (c :: before)
      end
  | _, _ => f (rev before)
  end.
Definition between_tags (t : str) : str := between_of (List.length t) t [].
End Between.

(** ** Characters with a meaning in HTML: '<', '>', and '&' unless it begins a character reference *)
Definition semicolon (t : str) : bool := match t with c :: _ => c =? 59 | [] => false end.
Definition hex_digit (c : N) : bool := ((97 <=? c) && (c <=? 102)) || ((65 <=? c) && (c <=? 70)) || ascii_digit c.
Definition latin (c : N) : bool := ((97 <=? c) && (c <=? 122)) || ((65 <=? c) && (c <=? 90)) || (c =? 8490) || (c =? 383).
Definition some_then (p q : N -> bool) (t : str) : bool := match t with c :: t' => p c && semicolon (snd (run q t')) | [] => false end.
Definition reference_ahead (t : str) : bool :=
  match t with
  | c :: t' => ((c =? 35) && (some_then ascii_digit ascii_digit t' || match t' with x :: t2 => cross x && some_then hex_digit hex_digit t2 | [] => false end))
               || some_then latin (fun d => latin d || ascii_digit d) t
  | [] => false
  end.
Definition lone_ampersand_at (prev : option N) (t : str) : option (str * str) :=
  match t with c :: t' => if (c =? 38) && negb (reference_ahead t') then Some (u "&amp;", t') else None | [] => None end.
Definition escaped (t : str) : str :=
  flat_map (fun c => if c =? 60 then u "&lt;" else if c =? 62 then u "&gt;" else [c]) (rewritten lone_ampersand_at t).

(** ** Words in capitals: three capitals or more, perhaps with small letters behind, at the beginning of
    the text or after a blank or one of ">(;-", before the end, a blank or punctuation; not where a
    quote or a '>' comes before the next '<'.  The capitals are marked with a token. *)
Definition small (c : N) : bool := rmem tab_Ll c.
Definition open_text (t : str) : bool := match snd (run (fun c => negb (c =? 34) && negb (c =? 62) && negb (c =? 60)) t) with c :: _ => c =? 60 | [] => true end.
Definition capitals_at (uid : str) (prev : option N) (t : str) : option (str * str) :=
  first_of (fun x : str * str =>
      let (w, r) := run capital (snd x) in
      let (z, r2) := run small r in
      if Nat.leb 3 (List.length w) && ends_here r2 && open_text r2
      then Some (fst x ++ u "<span class=""caps"">" ++ uid ++ u ":glyph:" ++ w ++ u "</span>" ++ z, r2) else None)
    (take_one is_ws t ++ match prev with None => [([], t)] | Some _ => [] end ++ take_one (among (u ">(;-")) t).

(** ** All together *)
Definition typeset (html5 restricted : bool) (uid : str) (t : str) : str :=
  rewritten (capitals_at uid) (typographic html5 (if restricted then t else escaped t)).
