(** What the iteration over the matches of a pattern is. *)
From Verif Require Import Str Unicode Regex RegexTheory.

(** Literal pieces with something between them. *)
Fixpoint interleave (lits others : list str) : str :=
  match lits, others with
  | [], _ => []
  | x :: _, [] => x
  | x :: lits', y :: others' => x ++ y ++ interleave lits' others'
  end.

(** The pattern matches (somehow) at the position with this text before (reversed)
    and after it. *)
Definition matches_here (r : re) (before after : str) : Prop :=
  exists s, Mat r (mk_mst before after []) s.

(** No match starts at a character of [lit].  Directly after another match
    ([adjacent]) an empty match does not count. *)
Definition gap (r : re) (adjacent : bool) (before lit rest : str) : Prop :=
  forall w c v, lit = w ++ c :: v ->
    ~ matches_here r (rev w ++ before) (c :: v ++ rest) \/
    (adjacent = true /\ w = [] /\
     exists s, match_at r before (c :: v ++ rest) = Some s /\ m_after s = c :: v ++ rest).

(** [cut r adjacent before text lits hits]: the text is the literals with the
    hits between them, each hit is the preferred match at its place, and no match
    starts inside of a literal. *)
Inductive cut (r : re) : bool -> str -> str -> list str -> list hit -> Prop :=
| CutEnd adjacent before lit :
    gap r adjacent before lit [] ->
    (adjacent = true /\ lit = [] \/ ~ matches_here r (rev lit ++ before) []) ->
    cut r adjacent before lit [lit] []
| CutHit adjacent before lit rest s lits hits :
    gap r adjacent before lit rest ->
    match_at r (rev lit ++ before) rest = Some s ->
    (adjacent = true -> lit = [] -> m_after s <> rest) ->
    cut r true (m_before s) (m_after s) lits hits ->
    cut r adjacent before (lit ++ rest) (lit :: lits) (mk_hit_of rest s :: hits).

(** Literals with the texts of the groups of the hits between them. *)
Fixpoint pieces (lits : list str) (groups : list (list str)) : list str :=
  match lits, groups with
  | [], _ => []
  | x :: _, [] => [x]
  | x :: lits', g :: groups' => x :: g ++ pieces lits' groups'
  end.

Definition group_texts (n : nat) (h : hit) : list (option str) := map (fun k => cap_text k (h_caps h)) (seq 1 (n - 1)).
Definition some_or (o : option str) : str := match o with Some t => t | None => [] end.
(** the texts of the groups of each hit *)
Definition hit_groups (n : nat) (h : hit) : list str := map some_or (group_texts n h).
