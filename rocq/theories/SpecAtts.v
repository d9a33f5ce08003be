(** Attribute specifications of blocks, cells and rows. *)
From Verif Require Import Str Unicode Regex ModelBase ModelAttrs.

Inductive halign := ToLeft | ToRight | Center | Justify.
Inductive valign := Top | Middle | Bottom.
Inductive item :=
| Style (ds : list str) (k : nat)        (* {d1;d2;...} and k semicolons *)
| Lang (l : str)                         (* [l] *)
| ClassId (c : str) (i : option str)     (* (c) or (c#i) *)
| PadLeft (n : nat)                      (* n opening parentheses *)
| PadRight (n : nat)                     (* n closing parentheses *)
| HAlign (a : halign)
| VAlign (v : valign)
| ColSpan (n : N)                        (* \n *)
| RowSpan (n : N)                        (* /n *)
| Heading                                (* the mark of a heading cell *)
| Stop.                                  (* the end of the specification of a cell or row *)
Definition halign_mark (a : halign) : str :=
  match a with ToLeft => u "<" | ToRight => u ">" | Center => u "=" | Justify => u "<>" end.
Definition valign_mark (v : valign) : str := match v with Top => u "^" | Middle => u "-" | Bottom => u "~" end.
Definition item_text (x : item) : str :=
  match x with
  | Style ds k => u "{" ++ join (u ";") ds ++ repeat 59 k ++ u "}"
  | Lang l => u "[" ++ l ++ u "]"
  | ClassId c i => u "(" ++ c ++ match i with Some i => u "#" ++ i | None => [] end ++ u ")"
  | PadLeft n => repeat 40 n
  | PadRight n => repeat 41 n
  | HAlign a => halign_mark a
  | VAlign v => valign_mark v
  | ColSpan n => u "\" ++ dec n
  | RowSpan n => u "/" ++ dec n
  | Heading => u "_"
  | Stop => u ". "
  end.
Definition items_text (l : list item) : str := flat_map item_text l.
Definition kind (x : item) : nat :=
  match x with Style _ _ => 0 | Lang _ => 1 | ClassId _ _ => 2 | PadLeft _ => 3 | PadRight _ => 4 | HAlign _ => 5 | VAlign _ => 6 | ColSpan _ => 7 | RowSpan _ => 8 | Heading => 9 | Stop => 10 end%nat.

(** ** Which specifications *)
Definition class_chars : str := u "abcdefghijklmnopqrstuvwxyzABCDEFGHIJKLMNOPQRSTUVWXYZ0123456789-_. /".
Definition id_part_chars : str := u "abcdefghijklmnopqrstuvwxyzABCDEFGHIJKLMNOPQRSTUVWXYZ0123456789-_.:".
Definition without (cs t : str) : Prop := forall c, In c cs -> ~ In c t.
(** The marks of spans are looked for everywhere in the specification of a cell, and in
    restricted mode declarations are not taken out of it. *)
Definition item_ok (el : element) (restricted : bool) (x : item) : Prop :=
  match x with
  | Style ds k =>
      ds <> [] /\ (exists l d, ds = l ++ [d] /\ d <> []) /\
      (forall d, In d ds -> without (u ";{}") d /\ (el = ElTd -> without (u "\/") d) /\ (restricted = true -> without (u "()[]<>=") d))
  | Lang l => l <> [] /\ without (u "[]{}") l /\ (el = ElTd -> without (u "\/") l)
  | ClassId c i =>
      (c <> [] \/ i <> None) /\ (forall x, In x c -> In x class_chars) /\ (forall s, i = Some s -> forall x, In x s -> In x id_part_chars) /\
      (el = ElTd -> ~ In 47 c)
  | PadLeft n | PadRight n => (0 < n)%nat
  | _ => True
  end.
Definition kept (restricted : bool) (x : item) : bool :=
  match x with Lang _ => false | Style _ _ => restricted | _ => true end.
(** Parentheses around other marks would be a class. *)
Definition pads_apart (restricted : bool) (l : list item) : Prop :=
  forall a n mid m b, filter (kept restricted) l = a ++ PadLeft n :: mid ++ PadRight m :: b -> mid = [] \/ exists c i, In (ClassId c i) mid.
Definition items_ok (el : element) (restricted : bool) (l : list item) : Prop :=
  NoDup (map kind l) /\ (forall x, In x l -> item_ok el restricted x) /\ pads_apart restricted l.

(** ** What they mean *)
Fixpoint pick {A} (f : item -> option A) (l : list item) : option A :=
  match l with [] => None | x :: l' => match f x with Some a => Some a | None => pick f l' end end.
Definition or_nil {A} (o : option (list A)) : list A := match o with Some l => l | None => [] end.
Definition valign_name (v : valign) : str := match v with Top => u "top" | Middle => u "middle" | Bottom => u "bottom" end.
Definition halign_name (a : halign) : str := match a with ToLeft => u "left" | ToRight => u "right" | Center => u "center" | Justify => u "justify" end.
Definition cell_or_row (el : element) : bool := match el with ElTd | ElTr => true | _ => false end.
Definition cell (el : element) : bool := match el with ElTd => true | _ => false end.
Definition declarations (el : element) (restricted : bool) (l : list item) : list str :=
  (if cell_or_row el then match l with VAlign v :: _ => [u "vertical-align:" ++ valign_name v] | _ => [] end else [])
  ++ (if restricted then [] else or_nil (pick (fun x => match x with Style ds _ => Some (map trim ds) | _ => None end) l))
  ++ or_nil (pick (fun x => match x with PadLeft n => Some [u "padding-left:" ++ dec (N.of_nat n) ++ u "em"] | _ => None end) l)
  ++ or_nil (pick (fun x => match x with PadRight n => Some [u "padding-right:" ++ dec (N.of_nat n) ++ u "em"] | _ => None end) l)
  ++ or_nil (pick (fun x => match x with HAlign a => Some [u "text-align:" ++ halign_name a] | _ => None end) l).
Definition attribute (name : string) (v : option str) : list (str * str) := match v with Some v => [(u name, v)] | None => [] end.
Definition meant (el : element) (with_id restricted : bool) (l : list item) : list (str * str) :=
  attribute "class" (if restricted then None else pick (fun x => match x with ClassId (c :: r) _ => Some (c :: r) | _ => None end) l)
  ++ attribute "colspan" (if cell el then pick (fun x => match x with ColSpan n => Some (dec n) | _ => None end) l else None)
  ++ attribute "id" (if restricted || negb with_id then None else pick (fun x => match x with ClassId _ i => i | _ => None end) l)
  ++ attribute "lang" (pick (fun x => match x with Lang l => Some l | _ => None end) l)
  ++ attribute "rowspan" (if cell el then pick (fun x => match x with RowSpan n => Some (dec n) | _ => None end) l else None)
  ++ attribute "style" (match declarations el restricted l with [] => None | ds => Some (join (u "; ") ds ++ u ";") end).
