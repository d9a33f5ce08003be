(** Definition lists among lists and paragraphs. *)
From Verif Require Import Str Regex RegexAuto ModelBase SpecPlain SpecLists.

(** A term, and its definition if there is one, each plain words as in the items of lists. *)
Definition entry : Type := (str * option str)%type.
Definition entry_source (e : entry) : str :=
  u "- " ++ fst e ++ match snd e with Some d => u " := " ++ d | None => [] end.
Definition entry_html (e : entry) : list str :=
  (u "	<dt>" ++ fst e ++ u "</dt>") :: match snd e with Some d => [u "	<dd>" ++ d ++ u "</dd>"] | None => [] end.
Definition defs_source (l : list entry) : str := join [10] (map entry_source l).
Definition defs_html (l : list entry) : str := join [10] (u "<dl>" :: flat_map entry_html l ++ [u "</dl>"]).
Definition proper_entry (e : entry) : Prop :=
  accepts item_text (fst e) /\ match snd e with Some d => accepts item_text d | None => True end.
(** Some entry has a definition; otherwise the text is a paragraph with dashes. *)
Definition proper_defs (l : list entry) : Prop := Forall proper_entry l /\ exists t d, In (t, Some d) l.

(** ** Documents of definition lists, lists and paragraphs of one line *)
Inductive passage := Plain (p : part) | Defs (l : list entry).
Definition proper_passage (p : passage) : Prop := match p with Plain p => proper_part p | Defs l => proper_defs l end.
Definition passage_source (p : passage) : str := match p with Plain p => part_source p | Defs l => defs_source l end.
Definition passage_html (p : passage) (c : counters) : option (str * counters) :=
  match p with Plain p => part_html p c | Defs l => Some (defs_html l, c) end.
Fixpoint passages_html (l : list passage) (c : counters) : option (list str) :=
  match l with
  | [] => Some []
  | p :: l' =>
      match passage_html p c with
      | None => None
      | Some (x, c) => match passages_html l' c with None => None | Some xs => Some (x :: xs) end
      end
  end.
