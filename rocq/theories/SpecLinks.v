(** Vocabulary for links: where a URL ends, what marking and rewriting do. *)
From Verif Require Import Str Unicode Regex ModelBase ModelHtml ModelUrl ModelInline.

(** ** Where a URL ends *)
Definition sentence_mark (c : N) : Prop := In c (u "!?:;.,").
Definition lower_name (w : str) : Prop := w <> [] /\ Forall (fun c => 97 <= c <= 122) w.
Definition parens_balanced (q : str) : Prop := count_char 40 q = count_char 41 q.
(** The closing square brackets are counted in [q] and in [tight], the text after the
    URL that was already cut off. *)
Definition squares_balanced (tight q : str) : Prop := count_char 91 q = count_char 93 (q ++ tight).
(** [cut_end tight url kept back]: from the end of [url] sentence marks, unbalanced
    closing parentheses and closing tags are handed back; unbalanced closing square
    brackets, and a '>' which ends no tag, are dropped. *)
Inductive cut_end (tight : str) : str -> str -> str -> Prop :=
| cut_empty : cut_end tight [] [] []
| cut_keep q c : ~ sentence_mark c -> c <> 62 -> (c = 41 -> parens_balanced (q ++ [c])) -> (c = 93 -> squares_balanced tight (q ++ [c])) ->
    cut_end tight (q ++ [c]) (q ++ [c]) []
| cut_mark q c kept back : sentence_mark c -> cut_end tight q kept back -> cut_end tight (q ++ [c]) kept (back ++ [c])
| cut_tag q name kept back : lower_name name -> cut_end tight q kept back ->
    cut_end tight (q ++ u "</" ++ name ++ u ">") kept (back ++ u "</" ++ name ++ u ">")
| cut_gt q : ~ (exists q' name, lower_name name /\ q = q' ++ u "</" ++ name) -> cut_end tight (q ++ [62]) q []
| cut_paren q kept back : ~ parens_balanced (q ++ [41]) -> cut_end tight q kept back -> cut_end tight (q ++ [41]) kept (back ++ [41])
| cut_square q kept back : ~ squares_balanced tight (q ++ [93]) -> cut_end tight q kept back -> cut_end tight (q ++ [93]) kept back.
(** What is before a link is dropped with an unbalanced bracket at its end. *)
Definition pre_after (tight url pre pre' : str) : Prop :=
  (exists q, url = q ++ [93] /\ ~ squares_balanced tight url) /\ pre' = [] \/
  ~ (exists q, url = q ++ [93] /\ ~ squares_balanced tight url) /\ pre' = pre.
(** [url_cut url kept back]: bracketed text at the end is cut off first. *)
Definition url_cut (url kept back pre pre' : str) : Prop :=
  exists url1 tight back1, url = url1 ++ tight /\ (tight = [] \/ exists q, url1 = q ++ [93]) /\
  cut_end tight url1 kept back1 /\ back = back1 ++ tight /\ pre_after tight url1 pre pre'.

(** [p] is [w] without some closing square brackets. *)
Inductive without_squares : str -> str -> Prop :=
| ws_nil : without_squares [] []
| ws_same c w p : without_squares w p -> without_squares (c :: w) (c :: p)
| ws_drop w p : without_squares w p -> without_squares (93 :: w) p.

(** ** Marking *)
(** [out] is the slice [s] with a mark somewhere before a double quote, and the part before
    its first double quote possibly repeated. *)
Definition marked (mark s out : str) : Prop :=
  (~ In 34 s /\ out = s) \/
  exists p rest k a b, s = p ++ 34 :: rest /\ ~ In 34 p /\ (p = [] -> k = O) /\ out = a ++ mark ++ 34 :: b /\
  a ++ 34 :: b = repeat_str (p ++ [34]) k ++ s.

(** ** Links *)
(** A character that ends a URL. *)
Definition url_stop (c : N) : bool := is_ws c || contains_char c (u "|^'""*").
(** The text of a marked link. *)
Definition marked_link (uid pre inner url : str) : str :=
  pre ++ uid ++ u "linkStartMarker:""" ++ inner ++ u """:" ++ url.
(** A link as it is emitted. *)
Definition a_tag (attrs : list (str * str)) (text : str) : str :=
  u "<a" ++ flat_map (fun kv => u " " ++ fst kv ++ u "=" ++ quoteattr (snd kv)) attrs ++ u ">" ++ text ++ u "</a>".
(** [linked W T url out s]: [out] is a token for an [<a>] whose [href] is a token for the
    address [url]; with a [rel] setting the tag carries it. *)
Definition linked (W : world) (T : textile) (url : url_bits) (out : str) (s : pstate) : Prop :=
  exists i attrs text, assoc out (ps_shelf s) = Some (a_tag attrs text) /\
  assoc (u "href") attrs = Some (t_uid T ++ dec i ++ u ":url") /\
  assocN i (ps_ref_cache s) = Some (encode_html (url_to_string url) true true) /\
  forall rel, t_rel T = Some rel -> assoc (u "rel") attrs = Some rel.
Definition shelf_token (T : textile) (out : str) : Prop := exists i, out = t_uid T ++ dec i ++ u ":shelve".
(** The schemes of the two modes. *)
Definition schemes (restricted : bool) : list str :=
  if restricted then [u "http"; u "https"; u "ftp"; u "mailto"]
  else [u "http"; u "https"; u "ftp"; u "mailto"; u "file"; u "tel"; u "callto"; u "sftp"; u "data"].
Definition scheme_ok (T : textile) (url : url_bits) : Prop := url_scheme url = [] \/ In (url_scheme url) (schemes (t_restricted T)).
(** What becomes of a marked link. *)
Inductive link_out (W : world) (T : textile) (pre inner url : str) (s : pstate) (out : str) (s' : pstate) : Prop :=
| lo_empty : inner = [] -> out = pre ++ u """"":" ++ url -> s' = s -> link_out W T pre inner url s out s'
| lo_refused kept back pre' full : inner <> [] -> url_cut url kept back pre pre' -> unrestrict_url T kept s = Ret full s ->
    ~ scheme_ok T (url_parse W full) -> out = replace_str (marked_link (t_uid T) pre inner url) (t_uid T ++ u "linkStartMarker:") [] -> s' = s ->
    link_out W T pre inner url s out s'
| lo_linked kept back pre' full token : inner <> [] -> url_cut url kept back pre pre' -> unrestrict_url T kept s = Ret full s ->
    scheme_ok T (url_parse W full) -> shelf_token T token -> linked W T (url_parse W full) token s' -> out = pre' ++ token ++ back ->
    link_out W T pre inner url s out s'.
(** The token of a stored address. *)
Definition url_token (T : textile) (token stored : str) (s : pstate) : Prop :=
  exists i, token = t_uid T ++ dec i ++ u ":url" /\ assocN i (ps_ref_cache s) = Some stored.
Definition img_tag (attrs : list (str * str)) : str :=
  u "<img" ++ flat_map (fun kv => u " " ++ fst kv ++ u "=" ++ quoteattr (snd kv)) attrs ++ u " />".
(** How an address is shown: parsed and printed again, escaped. *)
Definition shown_url (W : world) (x : str) : str :=
  match x with [] => [] | _ => encode_html (url_to_string (url_parse W x)) true true end.
(** [imaged W T src dest out s]: [out] is a token for an [<img>] whose [src] is a token for [src], inside of a link
    to [dest] if there is one. *)
Definition imaged (W : world) (T : textile) (src : str) (dest : option str) (out : str) (s : pstate) : Prop :=
  exists attrs content token, assoc out (ps_shelf s) = Some content /\
  assoc (u "src") attrs = Some token /\ url_token T token (shown_url W src) s /\
  match dest with
  | None => content = img_tag attrs
  | Some dest => exists token', url_token T token' (shown_url W dest) s /\
      content = a_tag [(u "href", token')] (img_tag attrs)
  end.

(** ** URL aliases *)
(** The last of the definitions of an alias. *)
Fixpoint last_def (alias : str) (defs : list (str * str)) : option str :=
  match defs with
  | [] => None
  | (a, url) :: defs' =>
      match last_def alias defs' with
      | Some x => Some x
      | None => if seqb a alias then Some url else None
      end
  end.
(** The address a stored URL stands for: an alias stands for its definition. *)
Definition address (W : world) (s : pstate) (stored : str) : str :=
  match stored, assoc stored (ps_urlrefs s) with
  | [], _ => []
  | _, Some def => encode_html (us_to_string W def) true true
  | _, None => stored
  end.
