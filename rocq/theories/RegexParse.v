(** Parser for the regular expression syntax used by /repo/src, so that the
    model can quote the patterns of the source, and [format!] for the places
    where the source assembles them. *)
From Verif Require Import Str Unicode Regex.

(** ** [format!]: [{name}], [{{] and [}}]. *)
Fixpoint assoc_str (k : str) (l : list (str * str)) : str :=
  match l with
  | [] => []
  | (k', v) :: l' => if seqb k k' then v else assoc_str k l'
  end.

(* [name]: [None] outside of braces, [Some acc] (reversed) inside. *)
Fixpoint fmt_go (args : list (str * str)) (t : str) (skip : bool) (name : option str) : str :=
  match t with
  | [] => []
  | c :: t' =>
      if skip then fmt_go args t' false name else
      match name with
      | Some acc =>
          if c =? 125 then assoc_str (rev acc) args ++ fmt_go args t' false None
          else fmt_go args t' false (Some (c :: acc))
      | None =>
          if c =? 123 then
            match t' with
            | 123 :: _ => 123 :: fmt_go args t' true None
            | _ => fmt_go args t' false (Some [])
            end
          else if c =? 125 then 125 :: fmt_go args t' true None
          else c :: fmt_go args t' false None
      end
  end.

Definition fmt (t : string) (args : list (string * str)) : str :=
  fmt_go (map (fun a => (u (fst a), snd a)) args) (u t) false None.

(** ** The regex parser. *)
Record flags := mk_flags { f_i : bool; f_m : bool; f_s : bool }.

Definition cls_of (items : list citem) : cls := mk_cls false items.
Definition one (c : N) : citem := CRange c c.

(** Case folding of a range (ASCII letters, and the two other code points that
    fold to ASCII letters). *)
Definition overlap (lo hi lo' hi' : N) : list citem :=
  let a := N.max lo lo' in let b := N.min hi hi' in
  if a <=? b then [CRange a b] else [].

Definition shift_item (up : bool) (i : citem) : citem :=
  match i with
  | CRange a b => if up then CRange (a - 32) (b - 32) else CRange (a + 32) (b + 32)
  | x => x
  end.

Definition fold_item (i : citem) : list citem :=
  match i with
  | CRange lo hi =>
      [i] ++ map (shift_item true) (overlap lo hi 97 122)
          ++ map (shift_item false) (overlap lo hi 65 90)
          ++ (if ((lo <=? 107) && (107 <=? hi)) || ((lo <=? 75) && (75 <=? hi)) then [one 8490] else [])
          ++ (if ((lo <=? 115) && (115 <=? hi)) || ((lo <=? 83) && (83 <=? hi)) then [one 383] else [])
  | _ => [i]
  end.

Definition apply_i (fl : flags) (items : list citem) : list citem :=
  if f_i fl then flat_map fold_item items else items.

Definition any_cls : cls := mk_cls true [].
Definition dot_cls : cls := mk_cls true [one 10].

Definition prop_named (s : str) : option uprop :=
  if seqb s (u "L") then Some PL
  else if seqb s (u "M") then Some PM
  else if seqb s (u "N") then Some PN
  else if seqb s (u "Nd") then Some PNd
  else if seqb s (u "Pc") then Some PPc
  else if seqb s (u "Lu") then Some PLu
  else if seqb s (u "Ll") then Some PLl
  else if seqb s (u "Currency_Symbol") then Some PSc
  else None.

Fixpoint until_brace (s : str) : option (str * str) :=
  match s with
  | [] => None
  | c :: s' => if c =? 125 then Some ([], s')
               else match until_brace s' with
                    | Some (a, b) => Some (c :: a, b)
                    | None => None
                    end
  end.

(** An escape that denotes a set of characters; the text is what follows the
    backslash. *)
Definition parse_escape (s : str) : option (citem * str) :=
  match s with
  | [] => None
  | c :: r =>
      if c =? 115 then Some (CProp false PSpace, r)         (* \s *)
      else if c =? 83 then Some (CProp true PSpace, r)      (* \S *)
      else if c =? 100 then Some (CProp false PNd, r)       (* \d *)
      else if c =? 68 then Some (CProp true PNd, r)         (* \D *)
      else if c =? 119 then Some (CProp false PWord, r)     (* \w *)
      else if c =? 87 then Some (CProp true PWord, r)       (* \W *)
      else if c =? 110 then Some (one 10, r)                (* \n *)
      else if c =? 114 then Some (one 13, r)                (* \r *)
      else if c =? 116 then Some (one 9, r)                 (* \t *)
      else if c =? 102 then Some (one 12, r)                (* \f *)
      else if c =? 112 then                                 (* \p{…} *)
        match r with
        | 123 :: r' =>
            match until_brace r' with
            | Some (name, r'') =>
                match prop_named name with
                | Some p => Some (CProp false p, r'')
                | None => None
                end
            | None => None
            end
        | _ => None
        end
      else if is_id_char c then None                        (* other letters and digits: not used *)
      else Some (one c, r)
  end.

(** Items of a bracketed class up to the closing bracket. *)
Fixpoint parse_class (fuel : nat) (s : str) : option (list citem * str) :=
  match fuel with
  | O => None
  | S f =>
      let item :=
        match s with
        | [] => None
        | c :: r => if c =? 92 then parse_escape r
                    else if c =? 91 then None             (* nested class: not used *)
                    else Some (one c, r)
        end in
      match s with
      | 93 :: r => Some ([], r)
      | _ =>
          match item with
          | None => None
          | Some (i, r) =>
              let range :=
                match i, r with
                | CRange lo _, 45 :: hi :: r' =>
                    if (hi =? 93) || (hi =? 92) then None else Some (CRange lo hi, r')
                | _, _ => None
                end in
              let '(i', r') := match range with Some x => x | None => (i, r) end in
              match parse_class f r' with
              | Some (is', r'') => Some (i' :: is', r'')
              | None => None
              end
          end
      end
  end.

Fixpoint take_digits (s : str) : str :=
  match s with
  | c :: s' => if is_digit_ascii c then c :: take_digits s' else []
  | [] => []
  end.

Fixpoint rep_re (n : nat) (a : re) : re :=
  match n with O => REps | 1%nat => a | S n' => RSeq a (rep_re n' a) end.

Definition opt_re (greedy : bool) (a : re) : re :=
  if greedy then RAlt a REps else RAlt REps a.

Fixpoint upto_re (greedy : bool) (n : nat) (a : re) : re :=
  match n with O => REps | S n' => opt_re greedy (RSeq a (upto_re greedy n' a)) end.

(** A quantifier after an atom. *)
Definition parse_quant (a : re) (s : str) : re * str :=
  let lazy r := match r with 63 :: r' => (false, r') | _ => (true, r) end in
  match s with
  | 42 :: r => let '(g, r') := lazy r in (RStar g a, r')
  | 43 :: r => let '(g, r') := lazy r in (RSeq a (RStar g a), r')
  | 63 :: r => let '(g, r') := lazy r in (opt_re g a, r')
  | 123 :: r =>
      let d := take_digits r in
      match d with
      | [] => (a, s)
      | _ =>
          let n := N.to_nat (dec_value d) in
          match skipn (List.length d) r with
          | 125 :: r' => let '(_, r'') := lazy r' in (rep_re n a, r'')
          | 44 :: 125 :: r' => let '(g, r'') := lazy r' in (RSeq (rep_re n a) (RStar g a), r'')
          | 44 :: r' =>
              let d2 := take_digits r' in
              let k := N.to_nat (dec_value d2) in
              match skipn (List.length d2) r' with
              | 125 :: r'' => let '(g, r3) := lazy r'' in
                              (RSeq (rep_re n a) (upto_re g (k - n) a), r3)
              | _ => (a, s)
              end
          | _ => (a, s)
          end
      end
  | _ => (a, s)
  end.

(** The body of a look-behind: alternatives of one character or an assertion. *)
Fixpoint behind (r : re) : option re :=
  match r with
  | RCls k => Some (RBack k)
  | RAssert a => Some (RAssert a)
  | RAlt a b => match behind a, behind b with
                | Some a', Some b' => Some (RAlt a' b')
                | _, _ => None
                end
  | RSeq a REps => behind a
  | _ => None
  end.

Fixpoint until_gt (s : str) : str * str :=
  match s with
  | [] => ([], [])
  | c :: s' => if c =? 62 then ([], s') else let '(a, b) := until_gt s' in (c :: a, b)
  end.

(** Parser state: next group number and the named groups found. *)
Record pst := mk_pst { p_next : nat; p_names : list (str * nat) }.

Definition seq_re (a b : re) : re := match b with REps => a | _ => RSeq a b end.

Fixpoint parse_alt (fuel : nat) (fl : flags) (st : pst) (s : str) : option (re * pst * str) :=
  match fuel with
  | O => None
  | S f =>
      match parse_seq f fl st s with
      | None => None
      | Some (a, st1, s1) =>
          match s1 with
          | 124 :: s2 =>
              match parse_alt f fl st1 s2 with
              | Some (b, st2, s3) => Some (RAlt a b, st2, s3)
              | None => None
              end
          | _ => Some (a, st1, s1)
          end
      end
  end
with parse_seq (fuel : nat) (fl : flags) (st : pst) (s : str) : option (re * pst * str) :=
  match fuel with
  | O => None
  | S f =>
      match s with
      | [] => Some (REps, st, [])
      | c :: _ =>
          if (c =? 124) || (c =? 41) then Some (REps, st, s) else
          match parse_atom f fl st s with
          | None => None
          | Some (a, st1, s1) =>
              let '(q, s2) := parse_quant a s1 in
              match parse_seq f fl st1 s2 with
              | Some (b, st2, s3) => Some (seq_re q b, st2, s3)
              | None => None
              end
          end
      end
  end
with parse_atom (fuel : nat) (fl : flags) (st : pst) (s : str) : option (re * pst * str) :=
  match fuel with
  | O => None
  | S f =>
      let close (x : option (re * pst * str)) (g : re -> option re) :=
        match x with
        | Some (a, st', 41 :: s') =>
            match g a with Some a' => Some (a', st', s') | None => None end
        | _ => None
        end in
      match s with
      | [] => None
      | 40 :: 63 :: 58 :: r => close (parse_alt f fl st r) (fun a => Some a)           (* (?: *)
      | 40 :: 63 :: 61 :: r => close (parse_alt f fl st r) (fun a => Some (RLook a))   (* (?= *)
      | 40 :: 63 :: 33 :: r => close (parse_alt f fl st r) (fun a => Some (RNLook a))  (* (?! *)
      | 40 :: 63 :: 60 :: 61 :: r => close (parse_alt f fl st r) behind                (* (?<= *)
      | 40 :: 63 :: 60 :: 33 :: r =>                                                   (* (?<! *)
          close (parse_alt f fl st r) (fun a => option_map RNLook (behind a))
      | 40 :: 63 :: 80 :: 60 :: r =>                                                   (* (?P<name> *)
          let '(name, r') := until_gt r in
          let n := p_next st in
          close (parse_alt f fl (mk_pst (S n) (p_names st ++ [(name, n)])) r')
                (fun a => Some (RGroup n a))
      | 40 :: 63 :: _ => None
      | 40 :: r =>
          let n := p_next st in
          close (parse_alt f fl (mk_pst (S n) (p_names st)) r) (fun a => Some (RGroup n a))
      | 91 :: 94 :: r =>
          match parse_class f r with
          | Some (is', r') => Some (RCls (mk_cls true (apply_i fl is')), st, r')
          | None => None
          end
      | 91 :: r =>
          match parse_class f r with
          | Some (is', r') => Some (RCls (cls_of (apply_i fl is')), st, r')
          | None => None
          end
      | 46 :: r => Some (RCls (if f_s fl then any_cls else dot_cls), st, r)
      | 94 :: r => Some (RAssert (if f_m fl then SOL else SOT), st, r)
      | 36 :: r => Some (RAssert (if f_m fl then EOL else EOT), st, r)
      | 92 :: 98 :: r => Some (RAssert WB, st, r)
      | 92 :: c :: r =>
          if (49 <=? c) && (c <=? 57) then Some (RBackref (N.to_nat (c - 48)), st, r)
          else match parse_escape (c :: r) with
               | Some (i, r') => Some (RCls (cls_of (apply_i fl [i])), st, r')
               | None => None
               end
      | c :: r =>
          if (c =? 42) || (c =? 43) || (c =? 63) || (c =? 92) || (c =? 41) || (c =? 91) then None
          else Some (RCls (cls_of (apply_i fl [one c])), st, r)
      end
  end.

(** Leading flags such as [(?ms)]. *)
Fixpoint parse_flag_chars (s : str) (fl : flags) : option (flags * str) :=
  match s with
  | 41 :: r => Some (fl, r)
  | 105 :: r => parse_flag_chars r (mk_flags true (f_m fl) (f_s fl))
  | 109 :: r => parse_flag_chars r (mk_flags (f_i fl) true (f_s fl))
  | 115 :: r => parse_flag_chars r (mk_flags (f_i fl) (f_m fl) true)
  | _ => None
  end.

Definition parse_flags (s : str) : flags * str :=
  let none := mk_flags false false false in
  match s with
  | 40 :: 63 :: r =>
      match parse_flag_chars r none with
      | Some x => x
      | None => (none, s)
      end
  | _ => (none, s)
  end.

(** A compiled regex: the expression, the number of groups (group 0 included),
    the names of groups. *)
Record rx := mk_rx { rx_re : re; rx_len : nat; rx_names : list (str * nat) }.

(** [Regex::new]; [None] is the error case. *)
Definition parse_rx (s : str) : option rx :=
  let '(fl, r) := parse_flags s in
  match parse_alt (4 * List.length s + 10) fl (mk_pst 1 []) r with
  | Some (a, st, []) => Some (mk_rx a (p_next st) (p_names st))
  | _ => None
  end.

(** For the constant patterns: an error would show in the definitions below,
    which are checked by [rx_ok]. *)
Definition rx_bad : rx := mk_rx (RNLook REps) 0 [].
Definition fregex (s : str) : rx := match parse_rx s with Some r => r | None => rx_bad end.
Definition rx_ok (r : rx) : bool := negb (Nat.eqb (rx_len r) 0) && wf_re (rx_re r).

(** [fancy_regex::escape] *)
Definition is_special (c : N) : bool :=
  contains_char c (u "\.+*?()|[]{}^$#").
Definition re_escape (s : str) : str :=
  flat_map (fun c => if is_special c then [92; c] else [c]) s.

(** Positions of named groups, for the model's numeric group references. *)
Definition named (r : rx) (name : string) : nat :=
  match find (fun p => seqb (fst p) (u name)) (rx_names r) with
  | Some p => snd p
  | None => O
  end.

(** A literal as a regex. *)
Fixpoint lit_re (s : str) : re :=
  match s with
  | [] => REps
  | c :: s' => seq_re (RCls (cls_of [one c])) (lit_re s')
  end.
