(** Vocabulary for notes: what stays of them, how they are listed, back links. *)
From Coq Require Import ZArith Sorted.
From Verif Require Import Str Unicode ModelBase SpecHtml SpecAttrs SpecState.

(** ** What stays of a note *)
(** Every note has an id. *)
Definition notes_have_ids (s : pstate) : Prop := forall label nt, assoc label (ps_notes s) = Some nt -> n_id nt <> [].
Definition note_referenced (label : str) (nt : note) (s : pstate) : Prop := assoc label (ps_notes s) = Some nt /\ n_seq nt <> None.
(** [b] is [a] with more references, and perhaps (another) text. *)
Definition stays (a b : note) : Prop :=
  n_seq b = n_seq a /\ n_id b = n_id a /\ (exists l, n_refids b = n_refids a ++ l) /\
  (n_content a <> None -> n_content b <> None) /\ (n_attrs a <> None -> n_attrs b <> None).
(** [b] is [a] with more references. *)
Definition same_text (a b : note) : Prop :=
  stays a b /\ n_content b = n_content a /\ n_attrs b = n_attrs a /\ n_link b = n_link a.

(** ** Order *)
(** The notes as a list shows them: by number, with the label for messages. *)
Definition listed (a b : note) (label : str) : Prop :=
  n_id b = n_id a /\ n_content b = n_content a /\ n_link b = n_link a /\ n_attrs b = n_attrs a /\
  n_refids b = n_refids a /\ n_seq b = Some label.
(** Entry [k] of [l] is the note with number [k + 1]. *)
Definition in_number_order (order : list str) (s : pstate) (l : list (str * note)) : Prop :=
  List.length l = List.length order /\
  forall k label, nth_error order k = Some label -> exists a b,
    assoc label (ps_notes s) = Some a /\ nth_error l k = Some (dec (1 + N.of_nat k), b) /\ listed a b label.
(** The same entries, in the dictionary order of the decimal numbers. *)
Definition in_dictionary_order (order : list str) (s : pstate) (l : list (str * note)) : Prop :=
  StronglySorted lex_lt (map fst l) /\ List.length l = List.length order /\
  forall k label, nth_error order k = Some label -> exists a b,
    assoc label (ps_notes s) = Some a /\ In (dec (1 + N.of_nat k), b) l /\ listed a b label.

(** ** Back links *)
Definition symbols : list N := [164; 167; 181; 182; 8224; 8225; 8226; 8727; 8756; 9674; 9824; 9827; 9829; 9830].
Definition back_link (refid sym : str) : str :=
  u "<sup><a href=""#noteref" ++ refid ++ u """>" ++ sym ++ u "</a></sup>".
(** The character of the k-th link: the k-th after [start]; symbols stay the same. *)
Definition link_char (start : N) (k : nat) : N := if existsb (N.eqb start) symbols then start else start + N.of_nat k.
Definition back_links (start : N) (refids links : list str) : Prop :=
  List.length links = List.length refids /\
  forall k id, nth_error refids k = Some id -> exists sym, num_ref (link_char start k) sym /\ nth_error links k = Some (back_link id sym).
(** [linked_back kind start refids text]: the back links of kind [kind]. *)
Inductive linked_back (kind : str) (start : N) (refids : list str) (text : str) : Prop :=
| lb_none : kind = u "!" -> text = [] -> linked_back kind start refids text
| lb_first id l sym : kind = u "^" -> refids = id :: l -> num_ref start sym -> text = back_link id sym -> linked_back kind start refids text
| lb_no_first : kind = u "^" -> refids = [] -> text = [] -> linked_back kind start refids text
| lb_all links : kind <> u "!" -> kind <> u "^" -> back_links start refids links -> text = join (u " ") links -> linked_back kind start refids text.

(** ** Items *)
(** How a note is shown in a list: with its text if it is defined. *)
Definition shown_note (links : str) (nt : note) : str :=
  match n_attrs nt, n_content nt with
  | Some atts, Some content =>
      [9] ++ [9] ++ u "<li" ++ atts ++ u ">" ++ links ++ u "<span id=""note" ++ n_id nt ++ u """> </span>" ++ content ++ u "</li>"
  | _, _ => [9] ++ [9] ++ u "<li>" ++ links ++ u " Undefined Note [#" ++ match n_seq nt with Some l => l | None => [] end ++ u "].</li>"
  end.
Definition note_shown (kind : str) (start : N) (kv : str * note) (item : str) : Prop :=
  exists links, linked_back (match n_link (snd kv) with Some k => k | None => kind end) start (n_refids (snd kv)) links /\
  item = shown_note links (snd kv).
Definition unreferenced (kv : str * note) : str :=
  [9] ++ [9] ++ u "<li" ++ match n_attrs (snd kv) with Some a => a | None => [] end ++ u ">"
  ++ match n_content (snd kv) with Some c => c | None => [] end ++ u "</li>".
(** A list; without items there is none. *)
Definition note_list (atts : str) (items : list str) : str :=
  match items with [] => [] | _ => u "<ol" ++ atts ++ u ">" ++ [10] ++ join [10] items ++ [10] ++ [9] ++ u "</ol>" end.

(** ** Footnote definitions *)
(** The anchor [id] is an attribute of the paragraph, or of the number at its start. *)
Definition has_anchor (id : str) (attrs : list (str * str)) (content : str) : Prop :=
  In (u "id", u "fn" ++ id) attrs \/ exists rest, content = u "<sup id=""fn" ++ id ++ u """>" ++ rest.
