(** The typographic replacements, as rules for any text. *)
From Verif Require Import Str Unicode ModelBase.

(** ** Rules: a mark becomes a symbol; characters around it may be asked for, which are kept. *)
Inductive lead :=
| Bare                          (* nothing *)
| Kept (p : N -> bool)          (* one such character *)
| MayKeep (p : N -> bool)       (* one such character, if there is one *)
| Apart.                        (* a white space, or the beginning of the text, or a word right before *)
Inductive trail :=
| Nothing
| Then (p : N -> bool)          (* one such character *)
| MayThen (p : N -> bool)       (* one such character, if there is one *)
| Ahead (q : str -> bool).      (* the text that follows is such, and is not taken *)
Record rule := mk_rule { r_lead : lead; r_mark : list (N -> bool); r_trail : trail; r_symbol : str }.

Definition word_char (c : N) : bool := rmem tab_Word c.
Definition take_one (p : N -> bool) (t : str) : list (str * str) := match t with c :: t' => if p c then [([c], t')] else [] | [] => [] end.
(** What may stand in front of the mark, and what comes then; [prev] is the character before. *)
Definition leads (l : lead) (prev : option N) (t : str) : list (str * str) :=
  match l with
  | Bare => [([], t)]
  | Kept p => take_one p t
  | MayKeep p => take_one p t ++ [([], t)]
  | Apart => take_one is_ws t ++ (if match prev with Some c => word_char c | None => true end then [([], t)] else [])
  end.
Fixpoint marks (ps : list (N -> bool)) (t : str) : option (str * str) :=
  match ps, t with
  | [], _ => Some ([], t)
  | p :: ps', c :: t' => if p c then match marks ps' t' with Some (w, r) => Some (c :: w, r) | None => None end else None
  | _ :: _, [] => None
  end.
Definition trails (l : trail) (t : str) : option (str * str) :=
  match l with
  | Nothing => Some ([], t)
  | Then p => match t with c :: t' => if p c then Some ([c], t') else None | [] => None end
  | MayThen p => match t with c :: t' => if p c then Some ([c], t') else Some ([], t) | [] => Some ([], []) end
  | Ahead q => if q t then Some ([], t) else None
  end.
Fixpoint first_of {A B} (f : A -> option B) (l : list A) : option B :=
  match l with x :: l' => match f x with Some y => Some y | None => first_of f l' end | [] => None end.
(** What a rule puts at the beginning of a text, and the rest of the text. *)
Definition rule_at (R : rule) (prev : option N) (t : str) : option (str * str) :=
  first_of (fun x : str * str => match marks (r_mark R) (snd x) with
                     | Some (_, t1) => match trails (r_trail R) t1 with Some (z, t2) => Some (fst x ++ r_symbol R ++ z, t2) | None => None end
                     | None => None
                     end) (leads (r_lead R) prev t).

(** ** From left to right *)
Definition last_of (t : str) (prev : option N) : option N := match rev t with c :: _ => Some c | [] => prev end.
Section Rewrite.
Variable at_ : option N -> str -> option (str * str).
Fixpoint rewrite_of (n : nat) (prev : option N) (t : str) : str :=
  match n, t with
  | S n', c :: t' =>
      match at_ prev t with
      | Some (o, r) => o ++ rewrite_of n' (last_of (firstn (List.length t - List.length r) t) prev) r
      | None => c :: rewrite_of n' (Some c) t'
      end
  | _, _ => []
  end.
Definition rewritten (t : str) : str := rewrite_of (List.length t) None t.
End Rewrite.

(** ** The rules *)
Definition is (c d : N) : bool := d =? c.
Definition among (l : str) (d : N) : bool := existsb (N.eqb d) l.
Definition letter (c : N) : bool := rmem tab_L c || rmem tab_M c || rmem tab_N c || rmem tab_Pc c.
Definition solid (c : N) : bool := negb (is_ws c).
Definition opener : str := u "([{".
Definition punctuation : str := u "-!""#$%&()*+,/:;<=>?@'[\].^_`{|}~".
Definition starts_solid (t : str) : bool := match t with c :: _ => solid c | [] => false end.
Definition ends_here (t : str) : bool := match t with c :: _ => is_ws c || among punctuation c | [] => true end.
Definition bracketed (ps : list (N -> bool)) : list (N -> bool) := among (u "([") :: ps ++ [among (u "])")].
Definition both (a b : N) : N -> bool := among [a; b].

Definition apostrophe := mk_rule (Kept (fun c => letter c || is 41 c)) [is 39] (Then letter) (u "&#8217;").
Definition single_in_bracket := mk_rule (Kept (among opener)) [is 39] (Ahead starts_solid) (u "&#8216;").
Definition single_close := mk_rule (Kept solid) [is 39] (Ahead ends_here) (u "&#8217;").
Definition single_open := mk_rule Bare [is 39] Nothing (u "&#8216;").
Definition double_in_bracket := mk_rule (Kept (among opener)) [is 34] (Ahead starts_solid) (u "&#8220;").
Definition double_close := mk_rule (Kept solid) [is 34] (Ahead ends_here) (u "&#8221;").
Definition double_open := mk_rule Bare [is 34] Nothing (u "&#8220;").
Definition ellipsis := mk_rule (MayKeep (fun c => negb (is 46 c))) [is 46; is 46; is 46] Nothing (u "&#8230;").
Definition ampersand := mk_rule (MayKeep is_ws) [is 38] (Then is_ws) (u "&amp;").
Definition em_dash := mk_rule (MayKeep is_ws) [is 45; is 45] (MayThen is_ws) (u "&#8212;").
Definition en_dash := mk_rule Bare [is 32; is 45; is 32] Nothing (u " &#8211; ").
Definition trademark := mk_rule Apart (bracketed [both 84 116; both 77 109]) Nothing (u "&#8482;").
Definition registered := mk_rule Apart (bracketed [both 82 114]) Nothing (u "&#174;").
Definition copyright := mk_rule Apart (bracketed [both 67 99]) Nothing (u "&#169;").
Definition one_half := mk_rule Bare (bracketed [is 49; is 47; is 50]) Nothing (u "&#189;").
Definition one_quarter := mk_rule Bare (bracketed [is 49; is 47; is 52]) Nothing (u "&#188;").
Definition three_quarters := mk_rule Bare (bracketed [is 51; is 47; is 52]) Nothing (u "&#190;").
Definition degree := mk_rule Bare (bracketed [is 111]) Nothing (u "&#176;").
Definition plus_minus := mk_rule Bare (bracketed [is 43; is 47; is 45]) Nothing (u "&#177;").
Definition later_rules : list rule :=
  [single_in_bracket; single_close; single_open; double_in_bracket; double_close; double_open; ellipsis; ampersand; em_dash; en_dash;
   trademark; registered; copyright; one_half; one_quarter; three_quarters; degree; plus_minus].

(** ** Abbreviations: a capital and two or more capitals or digits, then words in brackets *)
Definition capital (c : N) : bool := rmem tab_Lu c.
Definition capital_or_digit (c : N) : bool := rmem tab_Lu c || rmem tab_Nd c.
Fixpoint run (p : N -> bool) (t : str) : str * str :=
  match t with c :: t' => if p c then let (w, r) := run p t' in (c :: w, r) else ([], t) | [] => ([], []) end.
Definition word_here (c : option N) : bool := match c with Some c => word_char c | None => false end.
Definition abbreviation_at (html5 : bool) (prev : option N) (t : str) : option (str * str) :=
  match t with
  | c :: t' =>
      let (w, r) := run capital_or_digit t' in
      if capital c && xorb (word_here prev) (word_char c) && Nat.leb 2 (List.length w) && word_here (last_of w None) then
        match r with
        | b :: r' =>
            let (x, r2) := run (fun d => negb (d =? 41)) r' in
            match r2 with
            | _ :: r3 =>
                if b =? 40 then
                  let tag := if html5 then u "abbr" else u "acronym" in
                  Some (u "<" ++ tag ++ u " title=""" ++ x ++ u """>" ++ (c :: w) ++ u "</" ++ tag ++ u ">", r3)
                else None
            | [] => None
            end
        | [] => None
        end
      else None
  | [] => None
  end.

(** ** The times sign: digits, then a bracket, a quote, a blank, each of them if there is one, an x, then
    a blank and a bracket, if there are, and then a number, with a sign or a currency or not *)
Definition opt_char (p : N -> bool) (t : str) : str * str := match t with c :: t' => if p c then ([c], t') else ([], t) | [] => ([], []) end.
Definition ascii_digit (c : N) : bool := (48 <=? c) && (c <=? 57).
Definition digits_ahead (t : str) : bool :=
  match t with
  | c :: t' => ascii_digit c || ((c =? 46) && match t' with d :: _ => ascii_digit d | [] => false end)
  | [] => false
  end.
Definition currency_off (t : str) : str := match t with c :: t' => if rmem tab_Sc c then snd (run is_ws t') else t | [] => [] end.
Definition number_ahead (t : str) : bool := digits_ahead (currency_off (snd (opt_char (among (u "+-")) t))).
Definition cross : N -> bool := both 120 88.
Definition times_at (prev : option N) (t : str) : option (str * str) :=
  let (n, t1) := run ascii_digit t in
  let (a, t2) := opt_char (among (u "])")) t1 in
  let (q, t3) := opt_char (among (u "'""")) t2 in
  let (s, t4) := opt_char (is 32) t3 in
  match t4 with
  | x :: t5 =>
      if negb (is_empty n) && (negb (word_here prev) || match prev with Some c => cross c | None => false end) && cross x then
        let (s2, t6) := opt_char (is 32) t5 in
        let (b, t7) := opt_char (among (u "[(")) t6 in
        if number_ahead t7 then Some ((n ++ a ++ q ++ s) ++ u "&#215;" ++ s2 ++ b, t7) else None
      else None
  | [] => None
  end.

(** ** Years and the like: a white space, a quote, digits (of any script), then one more letter or none,
    up to the end of a word; but no quote may follow, after a full stop and letters *)
Definition digit (c : N) : bool := rmem tab_Nd c.
Definition quote_ahead (t : str) : bool :=
  match snd (run (fun c => letter c || among (u "(?:|)") c) (snd (opt_char (is 46) t))) with c :: _ => c =? 39 | [] => false end.
Definition ends_word (last : option N) (t : str) : bool :=
  xorb (word_here last) (match t with c :: _ => word_char c | [] => false end) && negb (quote_ahead t).
Definition year_at (prev : option N) (t : str) : option (str * str) :=
  match t with
  | c :: q :: t' =>
      let (n, r) := run digit t' in
      if is_ws c && (q =? 39) && negb (is_empty n) then
        first_of (fun x => if ends_word (last_of (fst x) None) (snd x) then Some (c :: u "&#8217;" ++ fst x, snd x) else None)
          (map (fun y => (n ++ fst y, snd y)) (take_one letter r) ++ [(n, r)])
      else None
  | _ => None
  end.
(** ** All of them, in their order *)
Definition by_rules (rules : list rule) (text : str) : str := fold_left (fun t R => rewritten (rule_at R) t) rules text.
Definition typographic (html5 : bool) (text : str) : str :=
  rewritten (abbreviation_at html5) (by_rules later_rules (rewritten year_at (rewritten (rule_at apostrophe) (rewritten times_at text)))).
