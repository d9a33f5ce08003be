(** Documents that mix paragraphs, headings, quotations, preformatted text, comments, lists,
    tables and definition lists. *)
From Verif Require Import Str ModelBase SpecNewlines SpecPlain SpecDoc SpecLists SpecTables SpecDefs SpecSigned.

Inductive mixed :=
| Worded (p : SpecSigned.part)
| Listed (k : kind) (items : list SpecLists.item)
| Tabled (t : tableau)
| Defined (l : list entry).
Definition mixed_pieces (m : mixed) : list str :=
  match m with
  | Worded p => SpecSigned.pieces p
  | Listed k items => [list_source k items]
  | Tabled t => [table_source t]
  | Defined l => [defs_source l]
  end.
Definition mixed_source (ms : list mixed) : str := sections (flat_map mixed_pieces ms).
Definition mixed_ok (T : textile) (m : mixed) : Prop :=
  match m with
  | Worded p => part_ok T p
  | Listed k items => proper_list k items
  | Tabled t => proper_table (t_restricted T) t
  | Defined l => proper_defs l
  end.
(** Only a block with a signature ends a part that takes further blocks. *)
Definition bare (m : mixed) : bool := match m with Worded (Anonymous _) => true | Worded _ => false | _ => true end.
Definition takes_more (m : mixed) : bool := match m with Worded (Extended _ _ _ _) => true | _ => false end.
Fixpoint apart (ms : list mixed) : Prop :=
  match ms with
  | m :: ((m' :: _) as rest) => (takes_more m = true -> bare m' = false) /\ apart rest
  | _ => True
  end.

(** What is shown for each; only lists depend on what came before. *)
Definition mixed_html (r : bool) (br : str) (m : mixed) (c : counters) : option (list str * counters) :=
  match m with
  | Worded p => Some (SpecSigned.part_html r br p, c)
  | Listed k items => match list_html k items c with Some (x, c') => Some ([x], c') | None => None end
  | Tabled t => Some ([table_html t], c)
  | Defined l => Some ([defs_html l], c)
  end.
(** None: a list is numbered beyond the largest number. *)
Fixpoint mixed_page (r : bool) (br : str) (ms : list mixed) (c : counters) : option (list str) :=
  match ms with
  | [] => Some []
  | m :: rest =>
      match mixed_html r br m c with
      | None => None
      | Some (hs, c') => match mixed_page r br rest c' with None => None | Some l => Some (hs ++ l) end
      end
  end.
(** In restricted mode the document is escaped first. *)
Definition seen_mixed (T : textile) (m : mixed) : mixed := match m with Worded p => Worded (seen_part T p) | _ => m end.

(** No list goes on with the numbers of an earlier one. *)
Definition continues_no (k : kind) : Prop := match k with Numbers Continue => False | _ => True end.
Definition self_numbered (m : mixed) : Prop := match m with Listed k items => forall k', In k' (k :: flat_map kinds items) -> continues_no k' | _ => True end.
Definition shown (h : str) : bool := match h with [] => false | _ => true end.
