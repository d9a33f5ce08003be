(** Texts with placeholders and what they stand for. *)
From Verif Require Import Str ModelBase.

(** A placeholder of a stored fragment, of a stored URL, of an opening or a closing tag. *)
Inductive kind := Fragment | Url | Opening | Closing.
Inductive piece := Lit (t : str) | Mark (k : kind) (i : N).
Definition ending (k : kind) : str :=
  match k with Fragment => u ":shelve" | Url => u ":url" | Opening => u ":ospan " | Closing => u ":cspan" end.
Definition mark_text (uid : str) (k : kind) (i : N) : str := uid ++ dec i ++ ending k.
(** The text of the pieces. *)
Definition render (uid : str) (ps : list piece) : str :=
  flat_map (fun p => match p with Lit t => t | Mark k i => mark_text uid k i end) ps.
(** The numbered fragments of a store, and the store itself. *)
Definition fragments := list (N * list piece).
Definition store_of (uid : str) (fs : fragments) : list (str * str) :=
  map (fun f => (mark_text uid Fragment (fst f), render uid (snd f))) fs.
(** [stands_for fs d ps qs]: with every placeholder of a fragment in [ps] replaced by the
    fragment, in which the placeholders are replaced likewise, [ps] becomes [qs]; the fragments
    are nested at most [d] deep. *)
Inductive stands_for (fs : fragments) : nat -> list piece -> list piece -> Prop :=
| sf_nil : forall d, stands_for fs d [] []
| sf_lit : forall d t ps qs, stands_for fs d ps qs -> stands_for fs d (Lit t :: ps) (Lit t :: qs)
| sf_other : forall d k i ps qs, k <> Fragment -> stands_for fs d ps qs ->
    stands_for fs d (Mark k i :: ps) (Mark k i :: qs)
| sf_fragment : forall d i f gs ps qs, In (i, f) fs -> stands_for fs d f gs -> stands_for fs (S d) ps qs ->
    stands_for fs (S d) (Mark Fragment i :: ps) (gs ++ qs).
(** The placeholder prefix occurs in placeholders only. *)
Definition only_marks (uid : str) (ps : list piece) : Prop :=
  forall a ls b x y, ps = a ++ map Lit ls ++ b -> List.concat ls <> x ++ uid ++ y.
(** Every placeholder of a fragment in [ps] is the number of one of [fs]. *)
Definition known (fs : fragments) (ps : list piece) : Prop :=
  forall i, In (Mark Fragment i) ps -> In i (map fst fs).
(** Every fragment mentions earlier ones only. *)
Fixpoint earlier (before rest : fragments) : Prop :=
  match rest with
  | [] => True
  | (i, f) :: rest => ~ In i (map fst before) /\ known before f /\ earlier (before ++ [(i, f)]) rest
  end.
(** The prefix occurs at the start or after a character that does not occur in it. *)
Definition set_apart (uid text : str) : Prop :=
  forall a b, text = a ++ uid ++ b -> a = [] \/ exists a' c, a = a' ++ [c] /\ ~ In c uid.
