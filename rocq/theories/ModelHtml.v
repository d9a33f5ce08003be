(** src/htmltools.rs *)
From Verif Require Import Str Unicode Regex RegexParse RegexSnips Html5Table ModelBase.

(** The entity of one character, src/htmltools.rs:14-39: which characters are
    replaced depends on the two options. *)
Definition encode_char (quotes line_spacers : bool) (c : N) : str :=
  if c =? 38 then u "&amp;"
  else if c =? 60 then u "&lt;"
  else if c =? 62 then u "&gt;"
  else if quotes && (c =? 34) then u "&quot;"
  else if quotes && (c =? 39) then u "&#39;"
  else if line_spacers && (c =? 10) then u "&#13;"
  else if line_spacers && (c =? 13) then u "&#10;"
  else if line_spacers && (c =? 9) then u "&#9;"
  else [c].

(** [encode_html], src/htmltools.rs:12-45.  The Rust loop copies up to the next
    character of the set and replaces it; here character by character. *)
Definition encode_html (text : str) (quotes line_spacers : bool) : str :=
  flat_map (encode_char quotes line_spacers) text.

(** [reverse_encode_html], src/htmltools.rs:47-65 *)
Definition reverse_entity (h : hit) : M str :=
  entity <- capx 1 h ;;
  if seqb entity (u "&lt;") then ret (u "<")
  else if seqb entity (u "&gt;") then ret (u ">")
  else if seqb entity (u "&quot;") then ret (u """")
  else if seqb entity (u "&#39;") then ret (u "'")
  else if seqb entity (u "&#13;") then ret [10]
  else if seqb entity (u "&#10;") then ret [13]
  else if seqb entity (u "&#9;") then ret [9]
  else panic UnknownEntity.
Definition reverse_encode_html (text : str) : M str :=
  replace_allM (rx_re ENTITY_RE) reverse_entity text.

(** [quoteattr], src/htmltools.rs:69-80 *)
Definition quoteattr (data : str) : str :=
  let data := encode_html data false true in
  if contains_char 34 data then
    if contains_char 39 data then u """" ++ replace_char data 34 (u "&quot;") ++ u """"
    else u "'" ++ data ++ u "'"
  else u """" ++ data ++ u """".

(** [is_valid_attribute_char], src/htmltools.rs:83-92; [char::is_control] is the
    general category Cc. *)
Definition is_control (c : N) : bool := (c <=? 31) || ((127 <=? c) && (c <=? 159)).
Definition is_valid_attribute_char (c : N) : bool :=
  negb (is_control c || is_ws c || ((64976 <=? c) && (c <=? 65007))
        || (c =? 61) || (c =? 47) || (c =? 62) || (c =? 34) || (c =? 39)).

(** [join_html_attributes], src/htmltools.rs:95-103 *)
Definition attr_str (a : str * str) : str := u " " ++ fst a ++ u "=" ++ quoteattr (snd a).
Definition join_html_attributes (result : str) (attributes : list (str * str)) : str :=
  result ++ flat_map attr_str
              (filter (fun a => forallb is_valid_attribute_char (fst a)) attributes).

(** [generate_tag], src/htmltools.rs:131-162.  All call sites pass a tag (never
    [None]). *)
Definition is_alphanumeric (c : N) : bool := rmem tab_Alnum c.
Definition generate_tag (tag : str) (content : option str) (attributes : list (str * str)) : str :=
  let text := match content with Some t => t | None => [] end in
  if is_empty tag then text
  else if negb (forallb is_alphanumeric tag) then encode_html text true false
  else
    join_html_attributes (u "<" ++ tag) attributes ++
    match content with
    | Some t => u ">" ++ t ++ u "</" ++ tag ++ u ">"
    | None => u " />"
    end.

(** [INVALID_CHARREFS], src/htmltools.rs:164-200 *)
Definition invalid_charrefs : list (N * N) :=
  [ (0, 65533); (13, 13); (128, 8364); (129, 129); (130, 8218); (131, 402); (132, 8222);
    (133, 8230); (134, 8224); (135, 8225); (136, 710); (137, 8240); (138, 352); (139, 8249);
    (140, 338); (141, 141); (142, 381); (143, 143); (144, 144); (145, 8216); (146, 8217);
    (147, 8220); (148, 8221); (149, 8226); (150, 8211); (151, 8212); (152, 732); (153, 8482);
    (154, 353); (155, 8250); (156, 339); (157, 157); (158, 382); (159, 376) ].

(** [is_invalid_codepoint], src/htmltools.rs:204-213 *)
Definition between (lo hi c : N) : bool := (lo <=? c) && (c <=? hi).
Definition is_invalid_codepoint (cp : N) : bool :=
  between 1 8 cp || between 14 31 cp || between 127 159 cp || between 64976 65007 cp
  || (cp =? 11)
  || existsb (fun k => (cp =? k * 65536 + 65534) || (cp =? k * 65536 + 65535))
             [0; 1; 2; 3; 4; 5; 6; 7; 8; 9; 10; 11; 12; 13; 14; 15; 16].

(** [u32::from_str_radix(_, 16)] *)
Definition hex_digit (c : N) : option N :=
  if between 48 57 c then Some (c - 48)
  else if between 97 102 c then Some (c - 87)
  else if between 65 70 c then Some (c - 55)
  else None.
Fixpoint hex_value (s : str) (acc : N) : option N :=
  match s with
  | [] => Some acc
  | c :: s' => match hex_digit c with
               | Some d => hex_value s' (acc * 16 + d)
               | None => None
               end
  end.
Definition parse_hex (s : str) : option N :=
  match s with
  | [] => None
  | _ => match hex_value s 0 with
         | Some n => if n <=? u32_max then Some n else None
         | None => None
         end
  end.

(** The numeric part of [replace_charref], src/htmltools.rs:225-233 *)
Definition charref_of_num (num : N) : str :=
  match assocN num invalid_charrefs with
  | Some v => [v]
  | None =>
      if between 55296 57343 num || (1114111 <? num) then [65533]
      else if is_invalid_codepoint num then []
      else [num]
  end.

Definition html5_get (s : str) : option str :=
  option_map snd (find (fun p => seqb (u (fst p)) s) html5_rows).

(** The search for the longest named prefix, src/htmltools.rs:239-248 ([x] is a
    byte index in the source; names are ASCII, and for a non-ASCII text the
    slice could fall inside a character: [BadSlice]). *)
Fixpoint named_prefix (x : nat) (s : str) : M (option str) :=
  match x with
  | O | 1%nat => ret None
  | S x' =>
      p <- of_opt BadSlice (btake x s) ;;
      match html5_get p with
      | Some v => r <- of_opt BadSlice (bdrop x s) ;; ret (Some (v ++ r))
      | None => named_prefix x' s
      end
  end.

(** [replace_charref], src/htmltools.rs:216-252 *)
Definition replace_charref (h : hit) : M str :=
  s <- capx 1 h ;;
  match s with
  | 35 :: stripped =>
      let num :=
        match stripped with
        | c :: r => if (c =? 120) || (c =? 88)
                    then parse_hex (trim_end_matches 59 r)
                    else parse_uint u32_max (trim_end_matches 59 stripped)
        | [] => None
        end in
      n <- of_opt BadNumber num ;;
      ret (charref_of_num n)
  | _ =>
      match html5_get s with
      | Some v => ret v
      | None =>
          o <- named_prefix (blen s - 1) s ;;
          match o with
          | Some v => ret v
          | None => ret (u "&" ++ s)
          end
      end
  end.

(** [unescape], src/htmltools.rs:257-269 *)
Definition unescape (s : str) : M str :=
  if contains_char 38 s then replace_allM (rx_re CHARREF) replace_charref s else ret s.

(** [has_raw_text], src/htmltools.rs:272-298 *)
Definition has_raw_text (text : str) : bool :=
  if is_match (rx_re UNWRAPPABLE_RE) text || is_match (rx_re DIVIDER_RE) text then false
  else match captures (rx_re WRAPPED_RE) text with
       | Some m => is_match (rx_re PHRASING_RE) (cap_or 1 m)
       | None => true
       end.
