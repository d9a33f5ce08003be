(** Automata for texts with typographic symbols, stage by stage of their replacement. *)
From Verif Require Import Str Unicode Regex RegexParse RegexSnips RegexTheory RegexAuto RegexPath Lib ModelBase ModelInline ProofPlain ProofParas ProofText SpecPlain SpecText SpecSymbols.
#[local] Arguments u : simpl never.

(** ** Stages
    Stage 0 is what the author types; stage 1 has the ampersand escaped; stage [k + 2] is after
    the [k]-th replacement. *)
Definition late (s : symbol) : nat :=
  match s with
  | Ampersand | Joined _ _ => 0 | Times _ _ => 1 | Apostrophe _ _ => 2 | Decade _ => 3 | Single _ => 6 | Double _ => 9 | Ellipsis _ => 10
  | EmDash => 12 | EnDash => 13 | Trademark => 14 | Registered => 15 | Copyright => 16 | Half => 17 | Quarter => 18 | ThreeQuarters => 19
  | Degree => 20 | PlusMinus => 21
  end%nat.
Definition at_stage (k : nat) (s : symbol) : str :=
  if Nat.leb k (late s) then
    match s with
    | Single w => if Nat.eqb k 6 then u "'" ++ w ++ u "&#8217;" else typed s
    | Double w => if Nat.eqb k 9 then u """" ++ w ++ u "&#8221;" else typed s
    | _ => typed s
    end
  else shown s.
(** The symbols the step from stage [k] changes. *)
Definition changed (k : nat) (s : symbol) : bool :=
  Nat.eqb k (late s) || match s with Single _ => Nat.eqb k 5 | Double _ => Nat.eqb k 8 | _ => false end.

(** ** Items: a class, whether it may be read again, and the state after it *)
Definition item := (cls * bool * nat)%type.
Definition one_az : cls := mk_cls false (map (fun c => CRange c c) (u "abcdefghijklmnopqrstuvwxyz")).
Definition one_09 : cls := digit.
Definition az (l : nat) : list item := [(one_az, true, l)].
Definition dg (l : nat) : list item := [(one_09, true, l)].
Definition chr (c : N) (l : nat) : list item := [(ch c, false, l)].
(** A character reference. *)
Definition reference (s : str) : list item :=
  match s with
  | a :: b :: s' => chr a 22 ++ chr b 23 ++ flat_map (fun c => if c =? 59 then chr c 25 else chr c 24) s'
  | _ => []
  end.
Definition paren (s : str) : list item :=
  match s with
  | a :: b :: s' => chr a 27 ++ chr b 28 ++ flat_map (fun c => if c =? 41 then chr c 30 else chr c 29) s'
  | _ => []
  end.
Definition items (k : nat) (s : symbol) : list item :=
  if Nat.leb k (late s) then
    match s with
    | Times _ _ => dg 31 ++ chr 120 32 ++ dg 33
    | Apostrophe _ _ => az 34 ++ chr 39 35 ++ az 36
    | Decade _ => chr 39 50 ++ [(one_09, false, 55%nat)] ++ dg 33
    | Single _ => chr 39 37 ++ az 38 ++ (if Nat.eqb k 6 then reference (u "&#8217;") else chr 39 39)
    | Double _ => chr 34 40 ++ az 41 ++ (if Nat.eqb k 9 then reference (u "&#8221;") else chr 34 42)
    | Ellipsis _ => az 43 ++ chr 46 44 ++ chr 46 45 ++ chr 46 46
    | EmDash => chr 45 47 ++ chr 45 48
    | EnDash => chr 45 49
    | Ampersand => chr 38 51
    | Joined _ _ => az 56 ++ chr 38 57 ++ az 58
    | PlusMinus => chr 40 27 ++ chr 43 52 ++ chr 47 53 ++ chr 45 54 ++ chr 41 30
    | _ => paren (typed s)
    end
  else
    match s with
    | Times _ _ => dg 26 ++ reference (u "&#215;") ++ dg 26
    | Apostrophe _ _ => az 26 ++ reference (u "&#8217;") ++ az 26
    | Decade _ => reference (u "&#8217;") ++ [(one_09, false, 26%nat)] ++ dg 26
    | Single _ => reference (u "&#8216;") ++ az 26 ++ reference (u "&#8217;")
    | Double _ => reference (u "&#8220;") ++ az 26 ++ reference (u "&#8221;")
    | Ellipsis _ => az 26 ++ reference (u "&#8230;")
    | Joined _ _ => az 59 ++ reference (u "&amp;") ++ az 26
    | _ => reference (shown s)
    end.
Fixpoint chain (q : nat) (its : list item) (dst : nat) : list trans :=
  match its with
  | [] => [(q, ch 32, dst)]
  | (k, more, l) :: its' => (q, k, l) :: (if more then [(l, k, l)] else []) ++ chain l its' dst
  end.
Definition kinds : list symbol :=
  [Times [] []; Apostrophe [] []; Decade []; Single []; Double []; Ellipsis []; Ampersand; Joined [] []; EmDash; EnDash; Trademark; Registered; Copyright; Half; Quarter; ThreeQuarters; Degree; PlusMinus].
Fixpoint items_eqb (i j : list citem) : bool :=
  match i, j with
  | [], [] => true
  | CRange x y :: i', CRange x' y' :: j' => (x =? x') && (y =? y') && items_eqb i' j'
  | _, _ => false
  end.
Definition trans_eqb (a b : trans) : bool :=
  Nat.eqb (fst (fst a)) (fst (fst b)) && Nat.eqb (snd a) (snd b) &&
  match snd (fst a), snd (fst b) with
  | mk_cls false i, mk_cls false j => items_eqb i j
  | _, _ => false
  end.
Fixpoint dedupe (l : list trans) : list trans :=
  match l with
  | [] => []
  | t :: l' => let r := dedupe l' in if existsb (trans_eqb t) r then r else t :: r
  end.
(** Words end before a symbol in state [e]. *)
Definition ends (e : nat) : list trans :=
  flat_map (fun t => if mem (snd t) (au_final paragraph) then [(fst t, e)] else []) (au_trans paragraph).
Definition pool (k : nat) (out : symbol -> bool) : list trans :=
  dedupe ((20, ch 32, 21)%nat :: flat_map (fun s => if out s then [] else chain 21 (items k s) 8) kinds).
Definition pool_auto (k : nat) : auto := mk_auto (au_trans paragraph ++ ends 20 ++ pool k (fun _ => false)) 0%nat (au_final paragraph).
(** With the symbols that change next set apart: states from 60. *)
Definition stage_auto (k : nat) (apart : list trans) : auto :=
  mk_auto (au_trans paragraph ++ ends 20 ++ pool k (changed k) ++ ends 60 ++ apart) 0%nat (au_final paragraph).
