(** Strings as lists of Unicode scalar values, and the parts of Rust's
    [std::str] API that /repo/src calls.

    Rust [&str]/[String] values are modelled as [list N] (code points).  Byte
    offsets only matter in one function of the code base
    ([insert_brs], src/parser.rs:1020-1056); the UTF-8 length of a code point
    is modelled by [utf8_len] and used there. *)
From Coq Require Export List NArith Arith Bool Lia String Ascii.
Export ListNotations.
Open Scope N_scope.
Open Scope list_scope.

Definition str := list N.

(** ** Literals.
    Coq string literals are the UTF-8 bytes of the source text; [u] decodes
    them, so that [u "…"] is the code point list of the Rust literal. *)
Definition byte_of (a : ascii) : N := N_of_ascii a.

Fixpoint bytes_of (s : string) : list N :=
  match s with
  | EmptyString => []
  | String a s' => byte_of a :: bytes_of s'
  end.

(* [need] continuation bytes are still expected for the code point [acc]. *)
Fixpoint utf8_decode (need : nat) (acc : N) (bs : list N) : str :=
  match bs with
  | [] => []
  | b :: bs' =>
      match need with
      | O =>
          if b <? 128 then b :: utf8_decode O 0 bs'
          else if b <? 224 then utf8_decode 1 (b - 192) bs'
          else if b <? 240 then utf8_decode 2 (b - 224) bs'
          else utf8_decode 3 (b - 240) bs'
      | S O => (acc * 64 + (b - 128)) :: utf8_decode O 0 bs'
      | S n => utf8_decode n (acc * 64 + (b - 128)) bs'
      end
  end.

Definition u (s : string) : str := utf8_decode O 0 (bytes_of s).

(** The newline, written where a Rust literal has [\n]. *)
Definition nl : str := [10].
Definition tab : str := [9].
(** Character constants used by the model. *)
Definition c_tab : N := 9.
Definition c_nl : N := 10.
Definition c_cr : N := 13.
Definition c_sp : N := 32.
Definition c_dq : N := 34.   (* double quote *)
Definition c_amp : N := 38.
Definition c_sq : N := 39.   (* single quote *)
Definition c_lt : N := 60.
Definition c_gt : N := 62.

(** ** Equality. *)
Fixpoint seqb (a b : str) : bool :=
  match a, b with
  | [], [] => true
  | x :: a', y :: b' => (x =? y) && seqb a' b'
  | _, _ => false
  end.

Lemma seqb_refl a : seqb a a = true.
Proof. induction a; simpl; auto. rewrite N.eqb_refl; auto. Qed.

Lemma seqb_eq a b : seqb a b = true <-> a = b.
Proof.
  split; [|intros ->; apply seqb_refl].
  revert b; induction a as [|x a IH]; intros [|y b]; simpl; try discriminate; auto.
  intros H; apply andb_true_iff in H as [H1 H2].
  apply N.eqb_eq in H1; apply IH in H2; congruence.
Qed.

Lemma seqb_neq a b : seqb a b = false <-> a <> b.
Proof.
  split; intros H.
  - intros E; apply seqb_eq in E; congruence.
  - destruct (seqb a b) eqn:E; auto. apply seqb_eq in E; congruence.
Qed.

Definition str_eq_dec (a b : str) : {a = b} + {a <> b}.
Proof. apply list_eq_dec, N.eq_dec. Defined.

Definition is_empty (s : str) : bool := match s with [] => true | _ => false end.

(** [str::contains(char)] *)
Definition contains_char (c : N) (s : str) : bool := existsb (N.eqb c) s.

(** [str::starts_with(&str)] *)
Fixpoint starts_with (p s : str) : bool :=
  match p, s with
  | [], _ => true
  | x :: p', y :: s' => (x =? y) && starts_with p' s'
  | _ :: _, [] => false
  end.

(** [str::ends_with(&str)] *)
Definition ends_with (p s : str) : bool := starts_with (rev p) (rev s).

(** [str::contains(&str)] *)
Fixpoint contains (p s : str) : bool :=
  starts_with p s ||
  match s with
  | [] => false
  | _ :: s' => contains p s'
  end.

(** [str::find(&str)], as a code point index. *)
Fixpoint find_sub (p s : str) : option nat :=
  if starts_with p s then Some O
  else match s with
       | [] => None
       | _ :: s' => option_map S (find_sub p s')
       end.

(** [str::find(char)] and [str::rfind(char)], as code point indices. *)
Fixpoint find_char (c : N) (s : str) : option nat :=
  match s with
  | [] => None
  | x :: s' => if x =? c then Some O else option_map S (find_char c s')
  end.

Fixpoint rfind_char (c : N) (s : str) : option nat :=
  match s with
  | [] => None
  | x :: s' =>
      match rfind_char c s' with
      | Some i => Some (S i)
      | None => if x =? c then Some O else None
      end
  end.

(** [str::replace(&str, &str)]: left to right, non overlapping.
    [skip] counts the code points of the current occurrence still to drop. *)
Fixpoint replace_go (from to : str) (skip : nat) (s : str) : str :=
  match s with
  | [] => []
  | c :: s' =>
      match skip with
      | S k => replace_go from to k s'
      | O => if starts_with from s
             then to ++ replace_go from to (List.length from - 1) s'
             else c :: replace_go from to O s'
      end
  end.

Definition replace_str (s from to : str) : str :=
  match from with
  | [] => to ++ flat_map (fun c => c :: to) s   (* an empty pattern matches at every boundary *)
  | _ => replace_go from to O s
  end.

(** [str::replace(char, &str)] *)
Definition replace_char (s : str) (c : N) (to : str) : str :=
  flat_map (fun x => if x =? c then to else [x]) s.

(** [str::split(char)]: always at least one piece. *)
Fixpoint split_char (c : N) (s : str) : list str :=
  match s with
  | [] => [[]]
  | x :: s' =>
      if x =? c then [] :: split_char c s'
      else match split_char c s' with
           | p :: ps => (x :: p) :: ps
           | [] => [[x]]
           end
  end.

(** [str::split_once(char)] *)
Fixpoint split_once (c : N) (s : str) : option (str * str) :=
  match s with
  | [] => None
  | x :: s' =>
      if x =? c then Some ([], s')
      else match split_once c s' with
           | Some (l, r) => Some (x :: l, r)
           | None => None
           end
  end.

(** [slice::join(&str)] *)
Fixpoint join (sep : str) (l : list str) : str :=
  match l with
  | [] => []
  | [x] => x
  | x :: l' => x ++ sep ++ join sep l'
  end.

(** [str::matches(char).count()] *)
Definition count_char (c : N) (s : str) : nat :=
  List.length (filter (N.eqb c) s).

(** [str::repeat] *)
Fixpoint repeat_str (s : str) (n : nat) : str :=
  match n with O => [] | S n' => s ++ repeat_str s n' end.

(** ** Trimming by a predicate. *)
Fixpoint trim_start_by (p : N -> bool) (s : str) : str :=
  match s with
  | [] => []
  | x :: s' => if p x then trim_start_by p s' else s
  end.

Definition trim_end_by (p : N -> bool) (s : str) : str :=
  rev (trim_start_by p (rev s)).

Definition trim_by (p : N -> bool) (s : str) : str :=
  trim_end_by p (trim_start_by p s).

(** [char::is_whitespace], i.e. the Unicode White_Space property; also what
    [\s] matches in the [regex] crate, and what [str::trim] strips. *)
Definition is_ws (c : N) : bool :=
  ((9 <=? c) && (c <=? 13)) || (c =? 32) || (c =? 133) || (c =? 160)
  || (c =? 5760) || ((8192 <=? c) && (c <=? 8202))
  || (c =? 8232) || (c =? 8233) || (c =? 8239) || (c =? 8287) || (c =? 12288).

Definition trim (s : str) : str := trim_by is_ws s.
Definition trim_start (s : str) : str := trim_start_by is_ws s.
Definition trim_end (s : str) : str := trim_end_by is_ws s.
(** [str::trim_matches(char)], [str::trim_end_matches(char)] *)
Definition trim_matches (c : N) (s : str) : str := trim_by (N.eqb c) s.
Definition trim_end_matches (c : N) (s : str) : str := trim_end_by (N.eqb c) s.

(** ** Decimal printing of unsigned integers ([ToString for u32/usize]). *)
Fixpoint digits_go (fuel : nat) (n : N) (acc : str) : str :=
  match fuel with
  | O => acc
  | S f =>
      let acc' := (48 + n mod 10) :: acc in
      if n <? 10 then acc' else digits_go f (n / 10) acc'
  end.

(* The binary size of [n] bounds its number of decimal digits. *)
Definition dec (n : N) : str := digits_go (S (N.size_nat n)) n [].

(** Value of a string of ASCII digits ([str::parse::<u32>()] before the
    range check). *)
Definition is_digit_ascii (c : N) : bool := (48 <=? c) && (c <=? 57).

Definition dec_value (s : str) : N :=
  fold_left (fun a c => a * 10 + (c - 48)) s 0.

(** [str::parse::<uN>()] on a string: [None] is the [Err] case (empty,
    non-ASCII-digit, or above [max]).  A leading '+' is accepted by Rust. *)
Definition parse_uint (max : N) (s : str) : option N :=
  let s' := match s with c :: r => if c =? 43 then r else s | [] => s end in
  match s' with
  | [] => None
  | _ => if forallb is_digit_ascii s' then
           if dec_value s' <=? max then Some (dec_value s') else None
         else None
  end.

Definition u32_max : N := 4294967295.
Definition usize_max : N := 18446744073709551615.

(** UTF-8 encoded length of a code point ([char::len_utf8]). *)
Definition utf8_len (c : N) : nat :=
  if c <? 128 then 1 else if c <? 2048 then 2 else if c <? 65536 then 3 else 4.

Fixpoint blen (s : str) : nat :=
  match s with [] => O | c :: s' => (utf8_len c + blen s')%nat end.

(** [&s[k..]] for a byte offset [k]: [None] when [k] is not a character
    boundary or is past the end (Rust panics). *)
Fixpoint bdrop (k : nat) (s : str) : option str :=
  match k with
  | O => Some s
  | _ => match s with
         | [] => None
         | c :: s' => if Nat.leb (utf8_len c) k then bdrop (k - utf8_len c) s' else None
         end
  end.

(** [&s[..k]] for a byte offset [k]. *)
Fixpoint btake (k : nat) (s : str) : option str :=
  match k with
  | O => Some []
  | _ => match s with
         | [] => None
         | c :: s' => if Nat.leb (utf8_len c) k
                      then option_map (cons c) (btake (k - utf8_len c) s')
                      else None
         end
  end.

(** [&s[a..b]] *)
Definition bslice (a b : nat) (s : str) : option str :=
  if Nat.leb a b then
    match bdrop a s with
    | Some s' => btake (b - a) s'
    | None => None
    end
  else None.

(** UTF-8 encoding of a code point (for percent-encoding). *)
Definition utf8_bytes (c : N) : list N :=
  if c <? 128 then [c]
  else if c <? 2048 then [192 + c / 64; 128 + c mod 64]
  else if c <? 65536 then [224 + c / 4096; 128 + (c / 64) mod 64; 128 + c mod 64]
  else [240 + c / 262144; 128 + (c / 4096) mod 64; 128 + (c / 64) mod 64; 128 + c mod 64].
