(** Regular expressions: syntax, backtracking matcher, iteration over matches.

    Models the [fancy_regex] crate as used by /repo/src: leftmost-first
    (Perl-like) backtracking semantics.  The crate's backtrack limit is not
    modelled. *)
From Verif Require Import Str Unicode.

(** ** Character classes. *)
Inductive uprop := PSpace | PNd | PN | PL | PM | PPc | PLu | PLl | PSc | PWord.

Definition has_prop (p : uprop) (c : N) : bool :=
  match p with
  | PSpace => is_ws c
  | PNd => rmem tab_Nd c
  | PN => rmem tab_N c
  | PL => rmem tab_L c
  | PM => rmem tab_M c
  | PPc => rmem tab_Pc c
  | PLu => rmem tab_Lu c
  | PLl => rmem tab_Ll c
  | PSc => rmem tab_Sc c
  | PWord => rmem tab_Word c
  end.

Inductive citem := CRange (lo hi : N) | CProp (neg : bool) (p : uprop).

Record cls := mk_cls { c_neg : bool; c_items : list citem }.

Definition in_item (i : citem) (c : N) : bool :=
  match i with
  | CRange lo hi => (lo <=? c) && (c <=? hi)
  | CProp neg p => xorb neg (has_prop p c)
  end.

Definition in_cls (k : cls) (c : N) : bool :=
  xorb (c_neg k) (existsb (fun i => in_item i c) (c_items k)).

(** ** Syntax. *)
Inductive assertion :=
| SOT   (* [^]: start of text *)
| EOT   (* [$]: end of text *)
| SOL   (* [^] with (?m) *)
| EOL   (* [$] with (?m) *)
| WB.   (* [\b] *)

Inductive re :=
| REps
| RCls (k : cls)
| RSeq (a b : re)
| RAlt (a b : re)
| RStar (greedy : bool) (a : re)
| RGroup (n : nat) (a : re)
| RBackref (n : nat)
| RLook (a : re)            (* (?=a) *)
| RNLook (a : re)           (* (?!a) *)
| RBack (k : cls)           (* (?<=[k]), one character *)
| RAssert (a : assertion).

(** ** Match states.  [m_before] is the text before the current position,
    reversed.  A capture is the pair of the remaining texts at its two ends. *)
Definition caps := list (nat * (str * str)).

Record mst := mk_mst { m_before : str; m_after : str; m_caps : caps }.

Fixpoint find_cap (n : nat) (cs : caps) : option (str * str) :=
  match cs with
  | [] => None
  | (k, v) :: cs' => if Nat.eqb k n then Some v else find_cap n cs'
  end.

Definition cap_str (v : str * str) : str :=
  firstn (List.length (fst v) - List.length (snd v)) (fst v).

(** Text of group [n]; [None] if the group took no part in the match. *)
Definition cap_text (n : nat) (cs : caps) : option str :=
  option_map cap_str (find_cap n cs).

Definition head_word (s : str) : bool :=
  match s with [] => false | c :: _ => has_prop PWord c end.

Definition assert_holds (a : assertion) (before after : str) : bool :=
  match a with
  | SOT => is_empty before
  | EOT => is_empty after
  | SOL => match before with [] => true | c :: _ => c =? 10 end
  | EOL => match after with [] => true | c :: _ => c =? 10 end
  | WB => xorb (head_word before) (head_word after)
  end.

Definition step (s : mst) (c : N) (rest : str) : mst :=
  mk_mst (c :: m_before s) rest (m_caps s).

(** Consume the literal [p] (for back references). *)
Fixpoint eat_lit (p : str) (s : mst) : option mst :=
  match p with
  | [] => Some s
  | x :: p' =>
      match m_after s with
      | y :: rest => if x =? y then eat_lit p' (step s y rest) else None
      | [] => None
      end
  end.

(** ** The matcher, in continuation passing style.
    The loop of [RStar] is bounded by the remaining text: for a body that
    cannot match the empty string (all loops of the code base, see [wf_re])
    the bound is never felt. *)
Fixpoint m (r : re) (s : mst) (k : mst -> option mst) {struct r} : option mst :=
  match r with
  | REps => k s
  | RCls c =>
      match m_after s with
      | x :: rest => if in_cls c x then k (step s x rest) else None
      | [] => None
      end
  | RSeq a b => m a s (fun s' => m b s' k)
  | RAlt a b =>
      match m a s k with
      | Some x => Some x
      | None => m b s k
      end
  | RStar greedy a =>
      (fix loop (fuel : str) (s : mst) {struct fuel} : option mst :=
         match fuel with
         | [] => k s
         | _ :: fuel' =>
             if greedy then
               match m a s (loop fuel') with
               | Some x => Some x
               | None => k s
               end
             else
               match k s with
               | Some x => Some x
               | None => m a s (loop fuel')
               end
         end) (m_after s) s
  | RGroup n a =>
      m a s (fun s' =>
        k (mk_mst (m_before s') (m_after s') ((n, (m_after s, m_after s')) :: m_caps s')))
  | RBackref n =>
      match find_cap n (m_caps s) with
      | Some v => match eat_lit (cap_str v) s with
                  | Some s' => k s'
                  | None => None
                  end
      | None => None
      end
  | RLook a => match m a s Some with Some _ => k s | None => None end
  | RNLook a => match m a s Some with Some _ => None | None => k s end
  | RBack c =>
      match m_before s with
      | x :: _ => if in_cls c x then k s else None
      | [] => None
      end
  | RAssert a => if assert_holds a (m_before s) (m_after s) then k s else None
  end.

Definition match_at (r : re) (before after : str) : option mst :=
  m r (mk_mst before after []) Some.

(** No loop has a body that can match the empty string. *)
Fixpoint nullable (r : re) : bool :=
  match r with
  | RCls _ => false
  | RSeq a b => nullable a && nullable b
  | RAlt a b => nullable a || nullable b
  | RGroup _ a => nullable a
  | _ => true
  end.

Fixpoint wf_re (r : re) : bool :=
  match r with
  | RSeq a b | RAlt a b => wf_re a && wf_re b
  | RStar _ a => wf_re a && negb (nullable a)
  | RGroup _ a | RLook a | RNLook a => wf_re a
  | _ => true
  end.

(** ** Matches in a text. *)
Record hit := mk_hit { h_text : str; h_caps : caps }.

(** The iteration over all matches cuts a text into literal characters and
    matches. *)
Inductive seg := Lit (c : N) | Hit (h : hit).

Definition mk_hit_of (text : str) (s : mst) : hit :=
  mk_hit (cap_str (text, m_after s)) (m_caps s).

(** [fancy_regex]'s [Matches] iterator: an empty match directly after the
    previous match is skipped.  [skip] counts the characters of the current
    match still to pass, [last] tells that a match ended here. *)
Fixpoint scan (r : re) (before text : str) (skip : nat) (last : bool) {struct text} : list seg :=
  match text with
  | [] =>
      if last then []
      else match match_at r before [] with
           | Some s => [Hit (mk_hit_of [] s)]
           | None => []
           end
  | c :: rest =>
      match skip with
      | S k => scan r (c :: before) rest k true
      | O =>
          match match_at r before text with
          | None => Lit c :: scan r (c :: before) rest O false
          | Some s =>
              match (List.length text - List.length (m_after s))%nat with
              | O =>
                  if last then Lit c :: scan r (c :: before) rest O false
                  else Hit (mk_hit_of text s) :: Lit c :: scan r (c :: before) rest O false
              | S k => Hit (mk_hit_of text s) :: scan r (c :: before) rest k true
              end
          end
      end
  end.

Definition segs (r : re) (text : str) : list seg := scan r [] text O false.

(** The first match, with the text before and after it. *)
Fixpoint find_from (r : re) (before text : str) : option (str * hit * str) :=
  match match_at r before text with
  | Some s => Some (rev before, mk_hit_of text s, m_after s)
  | None =>
      match text with
      | [] => None
      | c :: rest => find_from r (c :: before) rest
      end
  end.

(** [Regex::captures], [Regex::find], [Regex::is_match] *)
Definition find_first (r : re) (text : str) : option (str * hit * str) := find_from r [] text.
Definition captures (r : re) (text : str) : option hit :=
  option_map (fun x => snd (fst x)) (find_first r text).
Definition is_match (r : re) (text : str) : bool :=
  match captures r text with Some _ => true | None => false end.

(** [Regex::replace_all] with a function. *)
Definition replace_all (r : re) (f : hit -> str) (text : str) : str :=
  flat_map (fun g => match g with Lit c => [c] | Hit h => f h end) (segs r text).

(** [Regex::replace_all] with a template: [$1], [$name] (not used), [${1}] and [$$]
    are expanded; a group that took no part is empty. *)
Definition is_id_char (c : N) : bool :=
  is_digit_ascii c || ((65 <=? c) && (c <=? 90)) || ((97 <=? c) && (c <=? 122)) || (c =? 95).

Fixpoint take_id (s : str) : str :=
  match s with
  | c :: s' => if is_id_char c then c :: take_id s' else []
  | [] => []
  end.

(* Group names never occur in the templates of /repo/src; a name expands to
   nothing, as an unknown one does. *)
Definition group_text (id : str) (h : hit) : str :=
  match parse_uint u32_max id with
  | Some 0 => h_text h
  | Some n => match cap_text (N.to_nat n) (h_caps h) with Some t => t | None => [] end
  | None => []
  end.

Fixpoint expand_go (t : str) (skip : nat) (h : hit) : str :=
  match t with
  | [] => []
  | c :: t' =>
      match skip with
      | S k => expand_go t' k h
      | O =>
          if c =? 36 then
            match t' with
            | 36 :: _ => 36 :: expand_go t' 1 h
            | 123 :: t'' =>
                let id := take_id t'' in
                match skipn (List.length id) t'' with
                | 125 :: _ =>
                    match id with
                    | [] => 36 :: expand_go t' O h
                    | _ => group_text id h ++ expand_go t' (List.length id + 2) h
                    end
                | _ => 36 :: expand_go t' O h
                end
            | _ =>
                let id := take_id t' in
                match id with
                | [] => 36 :: expand_go t' O h
                | _ => group_text id h ++ expand_go t' (List.length id) h
                end
            end
          else c :: expand_go t' O h
      end
  end.

Definition expand (t : str) (h : hit) : str := expand_go t O h.

Definition replace_tmpl (r : re) (t : str) (text : str) : str :=
  replace_all r (expand t) text.
