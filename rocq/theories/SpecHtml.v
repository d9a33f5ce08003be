(** Specification vocabulary for HTML text and attributes; nothing here refers to
    the model. *)
From Verif Require Import Str.

(** ** Character references, as an HTML reader sees them *)
Fixpoint span_digits (s : str) : str * str :=
  match s with
  | c :: s' => if is_digit_ascii c then let '(d, r) := span_digits s' in (c :: d, r) else ([], s)
  | [] => ([], [])
  end.

(** The reference at the start of a text: its character and the rest. *)
Definition named_refs : list (str * N) :=
  [ (u "amp;", 38); (u "lt;", 60); (u "gt;", 62); (u "quot;", 34); (u "apos;", 39) ].
Fixpoint find_named (l : list (str * N)) (s : str) : option (N * nat) :=
  match l with
  | [] => None
  | (name, c) :: l' => if starts_with name s then Some (c, List.length name) else find_named l' s
  end.
(** The text is what follows the ampersand; the result is the character and the
    length of the reference after the ampersand. *)
Definition char_ref (s : str) : option (N * nat) :=
  match s with
  | 35 :: s' =>
      match span_digits s' with
      | ([], _) => None
      | (d, 59 :: _) => Some (dec_value d, S (S (List.length d)))
      | _ => None
      end
  | _ => find_named named_refs s
  end.

(** Replaces the references by their characters. *)
Fixpoint html_decode_go (skip : nat) (s : str) : str :=
  match s with
  | [] => []
  | c :: s' =>
      match skip with
      | S k => html_decode_go k s'
      | O => if c =? 38 then
               match char_ref s' with
               | Some (x, k) => x :: html_decode_go k s'
               | None => c :: html_decode_go O s'
               end
             else c :: html_decode_go O s'
      end
  end.
Definition html_decode (s : str) : str := html_decode_go O s.

(** ** Attributes of a start tag: [ name="value"] or [ name='value'], repeated.
    The tokenizer returns the names and the decoded values; [None] when the text
    is not of that form. *)
Fixpoint until (c : N) (s : str) : option (str * str) :=
  match s with
  | [] => None
  | x :: s' => if x =? c then Some ([], s')
               else match until c s' with
                    | Some (a, b) => Some (x :: a, b)
                    | None => None
                    end
  end.
Definition one_attr (s : str) : option (str * str * str) :=
  match s with
  | 32 :: s' =>
      match until 61 s' with
      | Some (name, q :: s'') =>
          if (q =? 34) || (q =? 39) then
            match until q s'' with
            | Some (value, rest) => Some (name, value, rest)
            | None => None
            end
          else None
      | _ => None
      end
  | _ => None
  end.
Fixpoint read_attrs (fuel : nat) (s : str) : option (list (str * str)) :=
  match s, fuel with
  | [], _ => Some []
  | _, O => None
  | _, S f =>
      match one_attr s with
      | Some (name, value, rest) =>
          match read_attrs f rest with
          | Some l => Some ((name, html_decode value) :: l)
          | None => None
          end
      | None => None
      end
  end.
Definition attributes_of (s : str) : option (list (str * str)) := read_attrs (List.length s) s.

(** The characters HTML allows in an attribute name (https://html.spec.whatwg.org,
    12.1.2.3): no controls, space, quotes, '>', '/', '=', noncharacters of the BMP
    block FDD0..FDEF. *)
Definition name_char (c : N) : Prop :=
  ~ (c <= 31 \/ 127 <= c <= 159) /\ is_ws c = false /\ ~ (64976 <= c <= 65007) /\
  c <> 61 /\ c <> 47 /\ c <> 62 /\ c <> 34 /\ c <> 39.
Definition valid_name (name : str) : Prop := Forall name_char name.

(** ** Numeric character references (HTML: numeric character reference end state) *)
(** The replacements of 0x80..0x9F, in order. *)
Definition win1252 : list N :=
  [8364; 129; 8218; 402; 8222; 8230; 8224; 8225; 710; 8240; 352; 8249; 338; 141; 381; 143;
   144; 8216; 8217; 8220; 8221; 8226; 8211; 8212; 732; 8482; 353; 8250; 339; 157; 382; 376].
Inductive num_ref : N -> str -> Prop :=
| NR_zero : num_ref 0 [65533]
| NR_win n : 128 <= n <= 159 -> num_ref n [nth (N.to_nat (n - 128)) win1252 0]
| NR_surrogate n : 55296 <= n <= 57343 -> num_ref n [65533]
| NR_high n : 1114111 < n -> num_ref n [65533]
| NR_control n : 1 <= n <= 8 \/ n = 11 \/ 14 <= n <= 31 \/ n = 127 -> num_ref n []
| NR_nonchar n : 64976 <= n <= 65007 \/ (n mod 65536 = 65534 \/ n mod 65536 = 65535) ->
    n <= 1114111 -> num_ref n []
| NR_char n : 9 <= n <= 10 \/ n = 12 \/ n = 13 \/ 32 <= n <= 126 \/ 160 <= n < 55296 \/ 57344 <= n < 64976
              \/ 65007 < n <= 1114111 -> n mod 65536 < 65534 -> num_ref n [n].

(** ** Percent-encoding *)
Definition hex_val (c : N) : option N :=
  if (48 <=? c) && (c <=? 57) then Some (c - 48)
  else if (65 <=? c) && (c <=? 70) then Some (c - 55)
  else None.
(** The bytes that a percent-encoded text stands for. *)
Fixpoint pct_decode (s : str) : option (list N) :=
  match s with
  | [] => Some []
  | 37 :: a :: b :: s' =>
      match hex_val a, hex_val b, pct_decode s' with
      | Some x, Some y, Some l => Some (x * 16 + y :: l)
      | _, _, _ => None
      end
  | c :: s' => if c =? 37 then None
               else match pct_decode s' with Some l => Some (c :: l) | None => None end
  end.

(** The entities an HTML writer may use for the characters of the five syntactic
    characters and the line spacers. *)
Definition known_entities : list str :=
  [u "&amp;"; u "&lt;"; u "&gt;"; u "&quot;"; u "&#39;"; u "&#13;"; u "&#10;"; u "&#9;"].
Definition digit_text (w : str) : Prop := w <> [] /\ Forall (fun c => 48 <= c <= 57) w.
Definition hex_text (w : str) : Prop :=
  w <> [] /\ Forall (fun c => 48 <= c <= 57 \/ 97 <= c <= 102 \/ 65 <= c <= 70) w.
(** The value of hexadecimal digits. *)
Definition hexdigit (c : N) : N := if c <=? 57 then c - 48 else if c <=? 70 then c - 55 else c - 87.
Definition hex_num (w : str) : N := fold_left (fun a c => a * 16 + hexdigit c) w 0.
