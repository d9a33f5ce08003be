(** Lists of terms and their meanings. *)
From Verif Require Import Str.
Inductive entry := Term (w : str) | Meaning (w : str).
Definition words (e : entry) : str := match e with Term w | Meaning w => w end.
Definition entry_mark (e : entry) : str := match e with Term _ => u ";" | Meaning _ => u ":" end.
Definition entry_html (e : entry) : str :=
  match e with Term w => u "<dt>" ++ trim w ++ u "</dt>" | Meaning w => u "<dd>" ++ trim w ++ u "</dd>" end.
(** No entry is blank. *)
Definition shown (l : list entry) : Prop := Forall (fun e => is_empty (trim (words e)) = false) l.
(** One list, however many terms and meanings there are, in whatever order after the first term. *)
Definition glossary_html (l : list entry) : str := u "<dl>" ++ flat_map (fun e => nl ++ tab ++ entry_html e) l ++ nl ++ u "</dl>".
(** All lists: after meanings without a term, the first term starts a second list within the first one.  Two lists are
    closed only if no meaning follows. *)
Definition entries (l : list entry) : str := flat_map (fun e => nl ++ tab ++ entry_html e) l.
Definition is_term (e : entry) : bool := match e with Term _ => true | Meaning _ => false end.
Fixpoint leading (l : list entry) : list entry * list entry :=
  match l with
  | Meaning w :: l' => (Meaning w :: fst (leading l'), snd (leading l'))
  | _ => ([], l)
  end.
Definition list_html (l : list entry) : str :=
  match leading l with
  | ([], _) | (_, []) => glossary_html l
  | (ms, rest) => u "<dl>" ++ entries ms ++ nl ++ u "<dl>" ++ entries rest ++ nl ++ u "</dl>" ++ (if forallb is_term rest then nl ++ u "</dl>" else [])
  end.
