(** Lists: trees of items, their source lines and their HTML. *)
From Verif Require Import Str Unicode Regex RegexAuto SpecPlain.

(** How the items of an ordered list are numbered. *)
Inductive start := One | Number (n : N) | Continue.
Inductive kind := Bullets | Numbers (st : start).
(** An item with the list below it; none if [sub] is empty. *)
Inductive item := Item (text : str) (k : kind) (sub : list item).

(** ** Texts of items: words separated by single blanks, like those of a paragraph. *)
Definition item_text : auto := mk_auto
  (filter (fun tr => negb (in_cls (snd (fst tr)) 10)) (au_trans paragraph)) 1%nat (au_final paragraph).

(** Lower case takes as many bytes as the character itself. *)
Definition same_width (c : N) : bool :=
  match lower_char c with [d] => Nat.eqb (utf8_len d) (utf8_len c) && negb (d =? 10) | _ => false end.
(** All texts in an item and below it, and the kinds of the lists below it. *)
Fixpoint texts (i : item) : list str := match i with Item t _ sub => t :: flat_map texts sub end.
Fixpoint kinds (i : item) : list kind := match i with Item _ k sub => k :: flat_map kinds sub end.
(** A number of the source fits into 64 bits. *)
Definition fits (k : kind) : Prop := match k with Numbers (Number n) => n <= 18446744073709551615 | _ => True end.
(** A list of plain items. *)
Definition proper_list (k : kind) (items : list item) : Prop :=
  items <> [] /\
  (forall t, In t (flat_map texts items) -> accepts item_text t /\ forallb same_width t = true) /\
  (forall k', In k' (k :: flat_map kinds items) -> fits k').

(** ** Source: the marker of a line has one character per level; the first line of an ordered
    list says how it is numbered. *)
Definition mark_of (k : kind) : N := match k with Bullets => 42 | Numbers _ => 35 end.
Definition first_suffix (k : kind) : str :=
  match k with Numbers (Number n) => dec n | Numbers Continue => [95] | _ => [] end.
Fixpoint item_lines (p suffix : str) (i : item) : list str :=
  match i with
  | Item text k sub =>
      (p ++ suffix ++ 32 :: text)
      :: match sub with
         | [] => []
         | i :: l => item_lines (p ++ [mark_of k]) (first_suffix k) i
                     ++ flat_map (item_lines (p ++ [mark_of k]) []) l
         end
  end.
Definition list_source (k : kind) (items : list item) : str :=
  match items with
  | [] => []
  | i :: l => join [10] (item_lines [mark_of k] (first_suffix k) i ++ flat_map (item_lines [mark_of k] []) l)
  end.

(** ** Numbering: for every marker the number of the next item. *)
Definition counters := str -> N.
Definition counted (p : str) (v : N) (c : counters) : counters := fun q => if seqb q p then v else c q.
Definition opening (k : kind) (p : str) (c : counters) : str * counters :=
  match k with
  | Bullets => (u "<ul>", c)
  | Numbers One => (u "<ol>", counted p 1 c)
  | Numbers (Number n) => (u "<ol start=""" ++ dec n ++ u """>", counted p n c)
  | Numbers Continue => (u "<ol start=""" ++ dec (c p) ++ u """>", c)
  end.
Definition closing (k : kind) : str := match k with Bullets => u "</ul>" | Numbers _ => u "</ol>" end.
(** Every item of an ordered list takes a number; there is no number after 2^64 - 1. *)
Definition take_number (k : kind) (p : str) (c : counters) : option counters :=
  match k with
  | Bullets => Some c
  | Numbers _ => if c p =? 18446744073709551615 then None else Some (counted p (c p + 1) c)
  end.

(** ** HTML *)
Section Items.
Variable f : item -> counters -> option (str * counters).
Fixpoint run_items (l : list item) (c : counters) : option (list str * counters) :=
  match l with
  | [] => Some ([], c)
  | i :: l' =>
      match f i c with
      | None => None
      | Some (x, c) =>
          match run_items l' c with
          | None => None
          | Some (xs, c) => Some (x :: xs, c)
          end
      end
  end.
Variable g : item -> nat.
Fixpoint of_last (d : nat) (l : list item) : nat :=
  match l with [] => d | i :: l' => of_last (g i) l' end.
End Items.
(** The indentation of the last line of an item, which its closing tags have, too. *)
Fixpoint last_indent (d : nat) (i : item) : nat :=
  match i with Item _ _ sub => of_last (last_indent (S d)) d sub end.
Definition tabs (d : nat) : str := List.repeat 9 d.
(** The HTML of an item of the list [p] of kind [k], indented by [d]. *)
Fixpoint item_html (d : nat) (k : kind) (p : str) (i : item) (c : counters) : option (str * counters) :=
  match i with
  | Item text k' sub =>
      match take_number k p c with
      | None => None
      | Some c =>
          match sub with
          | [] => Some (tabs d ++ u "	<li>" ++ text ++ u "</li>", c)
          | _ =>
              let p' := p ++ [mark_of k'] in
              let (tag, c) := opening k' p' c in
              match run_items (item_html (S d) k' p') sub c with
              | None => None
              | Some (lines, c) =>
                  Some (tabs d ++ u "	<li>" ++ text ++ 10 :: tabs (S d) ++ tag ++ 10 :: join [10] lines
                        ++ 10 :: tabs (of_last (last_indent (S d)) (S d) sub) ++ closing k' ++ u "</li>", c)
              end
          end
      end
  end.
Definition list_html (k : kind) (items : list item) (c : counters) : option (str * counters) :=
  let (tag, c) := opening k [mark_of k] c in
  match run_items (item_html 0 k [mark_of k]) items c with
  | None => None
  | Some (lines, c) =>
      Some (tag ++ 10 :: join [10] lines ++ 10 :: tabs (of_last (last_indent 0) 0 items) ++ closing k, c)
  end.

(** ** Documents of lists and paragraphs of one line: numbering goes on from list to list. *)
Inductive part := Line (t : str) | ListOf (k : kind) (items : list item).
Definition one_line : auto := mk_auto (au_trans item_text) 0%nat (au_final paragraph).
Definition proper_part (p : part) : Prop :=
  match p with Line t => accepts one_line t | ListOf k items => proper_list k items end.
Definition part_source (p : part) : str := match p with Line t => t | ListOf k items => list_source k items end.
Definition part_html (p : part) (c : counters) : option (str * counters) :=
  match p with Line t => Some (u "<p>" ++ t ++ u "</p>", c) | ListOf k items => list_html k items c end.
Fixpoint parts_html (l : list part) (c : counters) : option (list str) :=
  match l with
  | [] => Some []
  | p :: l' =>
      match part_html p c with
      | None => None
      | Some (x, c) => match parts_html l' c with None => None | Some xs => Some (x :: xs) end
      end
  end.
Definition from_one : counters := fun _ => 1.

(** ** Balanced tags *)
Inductive nested : str -> Prop :=
| NestedText t : ~ In 60 t -> ~ In 62 t -> nested t
| NestedApp a b : nested a -> nested b -> nested (a ++ b)
| NestedElement name atts w : forallb (fun c => (97 <=? c) && (c <=? 122)) name = true -> name <> [] ->
    ~ In 60 atts -> ~ In 62 atts -> (atts = [] \/ exists r, atts = 32 :: r) -> nested w ->
    nested (60 :: name ++ atts ++ [62] ++ w ++ u "</" ++ name ++ [62]).
