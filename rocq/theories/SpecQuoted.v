(** Quotes that stand alone or around a quotation, in any text. *)
From Verif Require Import Str Unicode ModelBase SpecState SpecGlyphRules SpecGlyphText.

(** ** Where they are: a blank, an opening character, a quotation, any character but a newline, a blank.
    The quotation is one double quote, or nothing, or a double quote and one or more other characters;
    the first of these that fits is taken, of the last kind the longest. *)
Definition starts : str := [34; 39; 40; 123; 91; 171; 187; 8249; 8250; 8222; 8218; 8216; 8221].
(** The ways to cut a text in two, the longest first part first. *)
Fixpoint cuts (w : str) : list (str * str) :=
  match w with c :: w' => map (fun x : str * str => (c :: fst x, snd x)) (cuts w') ++ [([], w)] | [] => [([], [])] end.
Definition quotations (t : str) : list (str * str) :=
  match t with c :: t' => if c =? 34 then [([c], t')] else [] | [] => [] end
  ++ [([], t)]
  ++ match t with
     | c :: d :: t' => if (c =? 34) && negb (d =? 34) then let (w, r) := run (fun e => negb (e =? 34)) t' in map (fun x : str * str => (c :: d :: fst x, snd x ++ r)) (cuts w) else []
     | _ => []
     end.
Definition closes (x : str * str) : option (str * N * str) :=
  match snd x with c :: b :: r => if negb (c =? 10) && (b =? 32) then Some (fst x, c, r) else None | _ => None end.
Definition quote_at (t : str) : option (N * (str * N * str)) :=
  match t with
  | b :: p :: t' => if (b =? 32) && among starts p then option_map (fun x => (p, x)) (first_of closes (quotations t')) else None
  | _ => None
  end.
Inductive piece := Char (c : N) | Quote (p : N) (q : str) (c : N).
Fixpoint pieces_of (n : nat) (t : str) : list piece :=
  match n, t with
  | S n', d :: t' => match quote_at t with Some (p, (q, c, r)) => Quote p q c :: pieces_of n' r | None => Char d :: pieces_of n' t' end
  | _, _ => []
  end.
Definition pieces (t : str) : list piece := pieces_of (List.length t) t.
Definition piece_source (x : piece) : str := match x with Char c => [c] | Quote p q c => 32 :: p :: q ++ [c; 32] end.

(** ** What becomes of them: if the last character is the counterpart of the opening one, they are put on
    the shelf, the quotation set by the typographic step; otherwise they are left alone. *)
Definition counterparts : list (N * N) :=
  [(34, 34); (39, 39); (40, 41); (123, 125); (91, 93); (171, 187); (187, 171); (8249, 8250); (8250, 8249); (8222, 8220); (8218, 8216); (8216, 8217); (8221, 8220)].
Definition fits (p c : N) : bool := existsb (fun x => (fst x =? p) && (snd x =? c)) counterparts.
Definition opening (p : N) : str := if p =? 34 then u "&#8220;" else if p =? 39 then u "&#8216;" else [p].
Definition closing (c : N) : str := if c =? 34 then u "&#8221;" else if c =? 39 then u "&#8217;" else [c].
Section Shown.
Variable T : textile.
Definition quotation (q : str) : str :=
  match q with
  | [] => []
  | [_] => u "&quot;"
  | _ => trim_end (between_tags (typeset (match t_html T with HTML5 => true | XHTML => false end) (t_restricted T) (t_uid T)) (trim_end_matches 10 q))
  end.
Definition fragment (p : N) (q : str) (c : N) : str := u " " ++ opening p ++ quotation q ++ closing c ++ u " ".
Fixpoint fragments (l : list piece) : list str :=
  match l with
  | Quote p q c :: l' => if fits p c then fragment p q c :: fragments l' else fragments l'
  | Char _ :: l' => fragments l'
  | [] => []
  end.
(** The text, with tokens numbered from [n + 1]. *)
Fixpoint pieces_shown (l : list piece) (n : N) : str :=
  match l with
  | Quote p q c :: l' => if fits p c then fragment_token T (n + 1) ++ pieces_shown l' (n + 1) else piece_source (Quote p q c) ++ pieces_shown l' n
  | Char d :: l' => d :: pieces_shown l' n
  | [] => []
  end.
(** Put on the shelf, under the next number. *)
Definition shelved (s : pstate) (x : str) : pstate :=
  set_shelf (im_insert (fragment_token T (ps_ref_index s + 1)) x (ps_shelf s)) (set_ref_index (ps_ref_index s + 1) s).
End Shown.
