(** Documents with footnotes. *)
From Verif Require Import Str Unicode Regex RegexAuto SpecPlain SpecText SpecLists.

(** A reference: the number of the footnote, whether it is without a link, and the words after it. *)
Definition reference := (str * bool * str)%type.
(** A line of words with references, or a footnote, with a link back or without. *)
Inductive passage := Line (t : str) (l : list reference) | Footnote (n : str) (back : bool) (t : str).

(** ** Source *)
Definition reference_source (r : reference) : str := let '(n, plain, t) := r in u "[" ++ n ++ (if plain then u "!" else []) ++ u "]" ++ t.
Definition passage_source (p : passage) : str :=
  match p with
  | Line t l => t ++ flat_map reference_source l
  | Footnote n back t => u "fn" ++ n ++ (if back then u "^" else []) ++ u ". " ++ t
  end.

(** ** What is shown.
    Each number has an identifier of its own from its first reference on: the prefix of the links
    and the index of the identifier.  Identifiers are numbered through; a footnote whose number
    has not been referenced takes one for itself. *)
Fixpoint known (n : str) (ids : list (str * N)) : option N :=
  match ids with [] => None | (m, i) :: ids' => if seqb m n then Some i else known n ids' end.
(** The identifiers in use, and the index of the last one. *)
Definition table := (list (str * N) * N)%type.
Section Shown.
Variable prefix : str.
Definition name (i : N) : str := prefix ++ dec i.
Definition link_to (target n : str) : str := u "<a href=""#" ++ target ++ u """>" ++ n ++ u "</a>".
Definition reference_html (r : reference) (c : table) : str * table :=
  let '(n, plain, t) := r in
  let mark i := if plain : bool then n else link_to (u "fn" ++ name i) n in
  match known n (fst c) with
  | Some i => (u "<sup class=""footnote"">" ++ mark i ++ u "</sup>" ++ t, c)
  | None => let i := snd c + 1 in
      (u "<sup class=""footnote"" id=""fnrev" ++ name i ++ u """>" ++ mark i ++ u "</sup>" ++ t, (fst c ++ [(n, i)], i))
  end.
Fixpoint references_html (l : list reference) (c : table) : str * table :=
  match l with
  | [] => ([], c)
  | r :: l' => let (x, c1) := reference_html r c in let (y, c2) := references_html l' c1 in (x ++ y, c2)
  end.
Definition passage_html (p : passage) (c : table) : str * table :=
  match p with
  | Line t l => let (x, c1) := references_html l c in (element (u "p") (t ++ x), c1)
  | Footnote n back t =>
      let (i, c1) := match known n (fst c) with Some i => (i, c) | None => (snd c + 1, (fst c, snd c + 1)) end in
      (u "<p class=""footnote"" id=""fn" ++ name i ++ u """><sup>" ++ (if back then link_to (u "fnrev" ++ name i) n else n) ++ u "</sup> " ++ t ++ u "</p>", c1)
  end.
Fixpoint passages_html (l : list passage) (c : table) : list str :=
  match l with [] => [] | p :: l' => let (x, c1) := passage_html p c in x :: passages_html l' c1 end.
End Shown.

(** ** The words around references: like those of a paragraph, on one line; after a reference a
    blank, or a mark of punctuation and a blank, or the next reference.  No exclamation mark before a
    reference, and after a reference without a link, which ends in one, no other one before the next blank:
    the text between two exclamation marks is that of an image.
    States: 103, 105 after a reference with and without a link; 104, 106 after a mark after it, 108 after an exclamation mark;
    107 after a mark before a reference. *)
Definition around_references : list trans :=
  (au_trans item_text ++ map (fun q => (q, one_of (u ",:;?"), 107)) [2; 3; 4; 5]
   ++ [(103, blank, 1); (103, one_of (u ",:;."), 104); (103, one_of (u "!"), 108); (104, blank, 1); (108, blank, 1); (105, blank, 1); (105, one_of (u ",:;."), 106); (106, blank, 1)])%nat.
Definition before_reference : list nat := [2; 3; 4; 5; 9; 107]%nat.
Definition first_words (last : bool) : auto := mk_auto around_references 0%nat (if last then au_final item_text else before_reference).
Definition after_reference (plain last : bool) : auto := mk_auto around_references
  (if plain then 105 else 103)%nat
  (if last then (if plain then [105; 106] else [103; 104; 108]) ++ au_final item_text else (if plain then [] else [103; 104]) ++ before_reference)%nat.
Definition none (l : list reference) : bool := match l with [] => true | _ => false end.
Definition footnote_number (n : str) : Prop := n <> [] /\ forall c, In c n -> 48 <= c <= 57.
Fixpoint proper_references (l : list reference) : Prop :=
  match l with
  | [] => True
  | (n, plain, t) :: l' => footnote_number n /\ accepts (after_reference plain (none l')) t /\ proper_references l'
  end.
Definition proper_passage (p : passage) : Prop :=
  match p with
  | Line t l => accepts (first_words (none l)) t /\ proper_references l
  | Footnote n _ t => footnote_number n /\ accepts item_text t
  end.
(** A prefix of identifiers: ASCII letters, digits and hyphens. *)
Definition prefix_ok (p : str) : Prop := forall c, In c p -> In c (u "abcdefghijklmnopqrstuvwxyzABCDEFGHIJKLMNOPQRSTUVWXYZ0123456789-").
