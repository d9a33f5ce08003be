(** Tables: rows of cells, their source lines and their HTML. *)
From Verif Require Import Str Unicode Regex RegexAuto ModelBase SpecAtts SpecPlain SpecNewlines SpecLists.

(** The text of a cell: like that of an item of a list, but without exclamation marks. *)
Definition cell_mark : cls := mk_cls false (map (fun c => CRange c c) (u ",:;?")).
Definition cell_text : auto := mk_auto
  (map (fun tr => if in_cls (snd (fst tr)) 33 then (fst (fst tr), cell_mark, snd tr) else tr) (au_trans item_text)) 1%nat (au_final item_text).
(** A cell: a heading or not, the columns and rows it spans, its alignments; its text may be empty. *)
Record cell := mk_cell { c_head : bool; c_col : option N; c_row : option N; c_valign : option valign; c_halign : option halign; c_text : str }.
Definition plain_cell (head : bool) (t : str) : cell := mk_cell head None None None None t.
(** The rows before the first group, and the groups of rows. *)
Inductive group := Head | Body | Foot.
Record tableau := mk_table { t_caption : option str; t_loose : list (list cell); t_groups : list (group * list (list cell)) }.
Definition all_rows (t : tableau) : list (list cell) := t_loose t ++ flat_map snd (t_groups t).

(** ** Source: a line for every row, a bar before every cell and at the end *)
Definition items_of (c : cell) : list SpecAtts.item :=
  (if c_head c then [SpecAtts.Heading] else []) ++ match c_col c with Some n => [ColSpan n] | None => [] end
  ++ match c_row c with Some n => [RowSpan n] | None => [] end ++ match c_valign c with Some v => [VAlign v] | None => [] end
  ++ match c_halign c with Some a => [HAlign a] | None => [] end.
Definition marks_of (c : cell) : str := match items_of c with [] => [] | l => items_text l ++ u ". " end.
Definition cell_source (c : cell) : str := marks_of c ++ c_text c.
Definition row_body (r : list cell) : str := flat_map (fun c => 124 :: cell_source c) r.
Definition row_source (r : list cell) : str := row_body r ++ [124].
Definition group_mark (g : group) : N := match g with Head => 94 | Body => 45 | Foot => 126 end.
(** The lines of a group: its mark, its rows. *)
Definition group_source (g : group * list (list cell)) : list str := [124; group_mark (fst g); 46] :: map row_source (snd g).
Definition caption_source (t : tableau) : list str := match t_caption t with Some c => [u "|=. " ++ c] | None => [] end.
Definition table_source (t : tableau) : str :=
  join [10] (caption_source t ++ map row_source (t_loose t) ++ flat_map group_source (t_groups t)).

(** ** Which tables *)
(** In restricted mode the marks less and greater are encoded before tables are looked for. *)
Definition proper_cell (restricted : bool) (c : cell) : Prop :=
  (c_text c = [] \/ accepts cell_text (c_text c)) /\
  (restricted = true -> c_halign c = None \/ c_halign c = Some Center).
Definition proper_row (restricted : bool) (r : list cell) : Prop := r <> [] /\ forall c, In c r -> proper_cell restricted c.
(** A centered cell at the very beginning would be a caption. *)
Definition caption_like (c : cell) : Prop := items_of c = [HAlign Center].
Definition proper_table (restricted : bool) (t : tableau) : Prop :=
  all_rows t <> [] /\ (forall r, In r (all_rows t) -> proper_row restricted r) /\ (forall g, In g (t_groups t) -> snd g <> []) /\
  match t_caption t with
  | Some c => accepts cell_text c
  | None => forall c r rs, t_loose t = (c :: r) :: rs -> ~ caption_like c
  end.

(** ** HTML: one tr for every row, one th or td for every cell.
    A vertical alignment counts only where its mark is the first one. *)
Definition cell_style (c : cell) : list str :=
  match c_head c, c_col c, c_row c, c_valign c with
  | false, None, None, Some v => [u "vertical-align:" ++ valign_name v]
  | _, _, _, _ => []
  end ++ match c_halign c with Some a => [u "text-align:" ++ halign_name a] | None => [] end.
Definition cell_atts (c : cell) : str :=
  match c_col c with Some n => u " colspan=""" ++ dec n ++ u """" | None => [] end ++
  match c_row c with Some n => u " rowspan=""" ++ dec n ++ u """" | None => [] end ++
  match cell_style c with [] => [] | l => u " style=""" ++ join (u "; ") l ++ u ";""" end.
Definition cell_html (c : cell) : str :=
  u "
			" ++ (if c_head c then u "<th" ++ cell_atts c ++ u ">" ++ c_text c ++ u "</th>" else u "<td" ++ cell_atts c ++ u ">" ++ c_text c ++ u "</td>").
Definition row_html (r : list cell) : str := u "
		<tr>" ++ flat_map cell_html r ++ u "
		</tr>".
Definition group_name (g : group) : str := match g with Head => u "thead" | Body => u "tbody" | Foot => u "tfoot" end.
Definition group_html (g : group * list (list cell)) : str :=
  u "
	<" ++ group_name (fst g) ++ u ">" ++ flat_map row_html (snd g) ++ u "
	</" ++ group_name (fst g) ++ u ">".
Definition caption_html (t : tableau) : str := match t_caption t with Some c => u "
	<caption>" ++ c ++ u "</caption>
" | None => [] end.
(** The rows before the first group come last. *)
Definition table_html (t : tableau) : str := u "	<table>" ++ caption_html t ++ flat_map group_html (t_groups t) ++ flat_map row_html (t_loose t) ++ u "
	</table>".

(** ** Texts one after the other within a text *)
Inductive in_order : list str -> str -> Prop :=
| InOrderNil s : in_order [] s
| InOrderCons a x b l : in_order l b -> in_order (x :: l) (a ++ x ++ b).
(** ** A cell all of whose marks take effect *)
Definition full_style (c : cell) : list str :=
  match c_valign c with Some v => [u "vertical-align:" ++ valign_name v] | None => [] end ++
  match c_halign c with Some a => [u "text-align:" ++ halign_name a] | None => [] end.
Definition full_cell (c : cell) : str :=
  let tag := if c_head c then u "th" else u "td" in
  u "<" ++ tag ++
  match c_col c with Some n => u " colspan=""" ++ dec n ++ u """" | None => [] end ++
  match c_row c with Some n => u " rowspan=""" ++ dec n ++ u """" | None => [] end ++
  match full_style c with [] => [] | l => u " style=""" ++ join (u "; ") l ++ u ";""" end ++
  u ">" ++ c_text c ++ u "</" ++ tag ++ u ">".
(** The mark of the vertical alignment is the first one, if there is one. *)
Definition valign_first (c : cell) : Prop := c_valign c = None \/ (c_head c = false /\ c_col c = None /\ c_row c = None).

(** ** Documents of paragraphs of one line, lists and tables *)
Inductive piece := APart (p : part) | ATable (t : tableau).
Definition proper_piece (restricted : bool) (p : piece) : Prop := match p with APart p => proper_part p | ATable t => proper_table restricted t end.
Definition piece_source (p : piece) : str := match p with APart p => part_source p | ATable t => table_source t end.
Definition piece_html (p : piece) (c : counters) : option (str * counters) :=
  match p with APart p => part_html p c | ATable t => Some (table_html t, c) end.
Fixpoint pieces_html (l : list piece) (c : counters) : option (list str) :=
  match l with
  | [] => Some []
  | p :: l' =>
      match piece_html p c with
      | None => None
      | Some (x, c) => match pieces_html l' c with None => None | Some xs => Some (x :: xs) end
      end
  end.

(** ** Blocks without a table: no blank line, and something after the last bar *)
Definition no_table (t : str) : Prop :=
  (forall a b, t <> a ++ 10 :: 10 :: b) /\ (forall a w, t = a ++ 124 :: w -> exists c, In c w /\ is_ws c = false).
