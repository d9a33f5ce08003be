(** src/parser.rs, part 1: storage, inline constructs, links, images, spans,
    glyphs. *)
From Coq Require Import ZArith.
From Verif Require Import Str Unicode Regex RegexParse RegexSnips ModelBase ModelHtml ModelUrl ModelAttrs.

(** ** Pure helpers *)

(** [proper_br_tag], src/parser.rs:2133-2138 *)
Definition br_tag (T : textile) : str :=
  match t_html T with XHTML => u "<br />" | HTML5 => u "<br>" end.

(** [get_special_options], src/parser.rs:161-171 *)
Definition get_special_options (pre tail : str) : str * str :=
  if seqb pre (u "[") && seqb tail (u "]") then ([], []) else (pre, tail).

(** [make_url_readable], src/parser.rs:173-180 *)
Definition make_url_readable (url : str) : str :=
  match find_sub (u "://") url with
  | Some pos => skipn (pos + 3) url
  | None => match find_sub (u ":") url with
            | Some pos => skipn (pos + 1) url
            | None => url
            end
  end.

(** Allowed schemes, src/parser.rs:1436-1440, 1506-1510 *)
Definition allowed_schemes (T : textile) : list str :=
  if t_restricted T then RESTRICTED_URL_SCHEMES else UNRESTRICTED_URL_SCHEMES.
Definition in_list (x : str) (l : list str) : bool := existsb (seqb x) l.

(** [normalize_newlines], src/parser.rs:1854-1864 *)
Definition normalize_newlines (text : str) : str :=
  trim_matches 10
    (replace_all (rx_re NORM_BLANK_RE) (fun _ => [10])
      (replace_all (rx_re NORM_CR_RE) (fun _ => [10]) text)).

(** ** Counters and stores *)

(** [increment_link_index], src/parser.rs:218-221 *)
Definition increment_link_index : M N :=
  s <- get ;;
  let i := ps_link_index s + 1 in
  put (set_link_index i s) ;;; ret i.

Definition next_ref : M N :=
  s <- get ;;
  let i := ps_ref_index s + 1 in
  put (set_ref_index i s) ;;; ret i.

Section WithSettings.
Variable W : world.
Variable T : textile.
(** Bound for the loops without structural bound. *)
Variable fuel : nat.

(** [shelve], src/parser.rs:382-387 *)
Definition shelve (text : str) : M str :=
  i <- next_ref ;;
  let item_id := t_uid T ++ dec i ++ u ":shelve" in
  modify (fun s => set_shelf (im_insert item_id text (ps_shelf s)) s) ;;;
  ret item_id.

(** [shelve_url], src/parser.rs:389-394 *)
Definition shelve_url (url : url_string) : M str :=
  let escaped_url := us_to_html_string W url in
  i <- next_ref ;;
  modify (fun s => set_ref_cache (nm_insert i escaped_url (ps_ref_cache s)) s) ;;;
  ret (t_uid T ++ dec i ++ u ":url").

(** [retrieve], src/parser.rs:396-408 *)
Definition retrieve_pass (shelf : list (str * str)) (text : str) : str :=
  fold_left (fun t kv => replace_str t (fst kv) (snd kv)) shelf text.
Fixpoint retrieve_loop (n : nat) (shelf : list (str * str)) (text : str) : M str :=
  match n with
  | O => diverge
  | S n' =>
      let new_text := retrieve_pass shelf text in
      if seqb new_text text then ret new_text else retrieve_loop n' shelf new_text
  end.
Definition retrieve (text : str) : M str :=
  s <- get ;; retrieve_loop fuel (ps_shelf s) text.

(** [retrieve_urls], src/parser.rs:410-438 *)
Definition retrieve_url_hit (h : hit) : M str :=
  token <- capx 1 h ;;
  s <- get ;;
  match parse_uint u32_max token with
  | Some key =>
      let url := match assocN key (ps_ref_cache s) with Some x => x | None => [] end in
      if is_empty url then ret url
      else match assoc url (ps_urlrefs s) with
           | Some rurl => ret (us_to_html_string W rurl)
           | None => ret url
           end
  | None => ret []
  end.
Definition retrieve_urls (text : str) : M str :=
  acquire ;;;
  pattern <- cached 413 [] (url_token_re (t_uid T)) ;;
  result <- replace_allM (rx_re pattern) retrieve_url_hit text ;;
  release ;;;
  ret result.

(** [f_textile], [no_textile], src/parser.rs:440-451 *)
Definition f_textile (h : hit) : M str :=
  before <- capx 1 h ;;
  notextile <- capx 2 h ;;
  let '(before, after) := get_special_options before (cap_or 3 h) in
  id <- shelve notextile ;;
  ret (before ++ id ++ after).
Definition no_textile (text : str) : M str :=
  step1 <- replace_allM (rx_re SPECIAL_NOTEXTILE) f_textile text ;;
  replace_allM (rx_re SPECIAL_EQ) f_textile step1.

(** [code], src/parser.rs:453-474 *)
Definition f_code (h : hit) : M str :=
  before <- capx 1 h ;;
  text <- capx 2 h ;;
  let '(before, after) := get_special_options before (cap_or 3 h) in
  id <- shelve (u "<code>" ++ encode_html text false false ++ u "</code>") ;;
  ret (before ++ id ++ after).
Definition f_pre (h : hit) : M str :=
  before <- capx 1 h ;;
  text <- capx 2 h ;;
  let '(before, after) := get_special_options before (cap_or 3 h) in
  id <- shelve (encode_html text true false) ;;
  ret (before ++ u "<pre>" ++ id ++ u "</pre>" ++ after).
Definition code (text : str) : M str :=
  text <- replace_allM (rx_re SPECIAL_CODE) f_code text ;;
  text <- replace_allM (rx_re SPECIAL_AT) f_code text ;;
  replace_allM (rx_re SPECIAL_PRE) f_pre text.

(** [get_html_comments], src/parser.rs:476-489 *)
Definition f_comment (h : hit) : M str :=
  before <- capx 1 h ;;
  comment <- capx 2 h ;;
  id <- shelve comment ;;
  ret (before ++ u "<!--" ++ id ++ u "-->").
Definition get_html_comments (text : str) : M str :=
  replace_allM (rx_re SPECIAL_COMMENT) f_comment text.

(** [unrestrict_url], src/parser.rs:495-501 *)
Definition unrestrict_url (url : str) : M str :=
  if t_restricted T then reverse_encode_html url else ret url.

(** [get_refs], src/parser.rs:504-528 *)
Definition f_ref (h : hit) : M str :=
  flag <- capx 1 h ;;
  url0 <- capx 2 h ;;
  url <- unrestrict_url url0 ;;
  modify (fun s => set_urlrefs (im_insert flag (Raw url) (ps_urlrefs s)) s) ;;;
  ret [].
Definition get_refs (text : str) : M str :=
  replace_allM (rx_re (if t_restricted T then RESTRICTED_URLREF_RE else UNRESTRICTED_URLREF_RE)) f_ref text.

(** [is_valid_url], src/parser.rs:1501-1513 *)
Definition scheme_allowed (scheme : str) : bool := in_list scheme (allowed_schemes T).
Definition is_valid_url (url : str) : bool :=
  let scheme := url_scheme (url_parse W url) in
  if is_empty scheme then true else scheme_allowed scheme.

(** [get_image_size], src/parser.rs:58-80.  [data] is the filled part of the
    1024 byte buffer; a read of no bytes ends the loop. *)
Definition MAX_IMAGE_CHUNK : nat := 1024.
Fixpoint read_loop (n i : nat) (url : str) (data : list N) : M (option (Z * Z)) :=
  match n with
  | O => diverge
  | S n' =>
      let room := (MAX_IMAGE_CHUNK - List.length data)%nat in
      match w_read W url i room with
      | Some bytes =>
          match firstn room bytes with
          | [] => ret None
          | got =>
              match w_info W (data ++ got) with
              | Some size => ret (Some size)
              | None => read_loop n' (S i) url (data ++ got)
              end
          end
      | None => ret None
      end
  end.
Definition get_image_size (url : str) : M (option (Z * Z)) :=
  modify (fun s => set_http (ps_http s ++ [url]) s) ;;;
  if w_get W url then read_loop (MAX_IMAGE_CHUNK + 2) O url [] else ret None.

(** [image], src/parser.rs:531-618 *)
Definition align_name (align : str) : M str :=
  if seqb align (u "<") || seqb align (u "&lt;") then ret (u "left")
  else if seqb align (u "=") then ret (u "center")
  else if seqb align (u ">") || seqb align (u "&gt;") then ret (u "right")
  else panic UnreachableCode.
Definition use_align_class : bool :=
  match t_align_class T with
  | Some v => v
  | None => match t_html T with XHTML => false | HTML5 => true end
  end.
Definition f_image (h : hit) : M str :=
  url <- capx 3 h ;;
  if negb (is_valid_url url) then ret (h_text h) else
  atts <- match cap_opt 2 h with
          | Some a => x <- block_attributes_parse a ElNone true (t_restricted T) ;; ret (ba_html_attrs x)
          | None => ret []
          end ;;
  atts <- match cap_opt 1 h with
          | Some align =>
              alignment <- align_name align ;;
              ret (if use_align_class then insert_css_class (u "align-" ++ alignment) atts
                   else attr_insert (u "align") alignment atts)
          | None => ret atts
          end ;;
  let optional_title := cap_opt 4 h in
  let atts := attr_insert (u "alt") (match optional_title with Some t => t | None => [] end) atts in
  atts <- (if negb (is_relative (url_parse W url)) && t_get_sizes T then
             size <- get_image_size url ;;
             match size with
             | Some (width, height) =>
                 ret (attr_insert (u "width") (dec_z width) (attr_insert (u "height") (dec_z height) atts))
             | None => ret atts
             end
           else ret atts) ;;
  clean_url <- unrestrict_url url ;;
  url_id <- shelve_url (Raw clean_url) ;;
  let atts := attr_insert (u "src") url_id atts in
  let atts := match optional_title with Some t => attr_insert (u "title") t atts | None => atts end in
  let img := generate_tag (u "img") None atts in
  out <- match cap_opt 5 h with
         | Some href =>
             clean_href <- unrestrict_url href ;;
             shelved_href <- shelve_url (Raw clean_href) ;;
             ret (if is_empty shelved_href then img
                  else generate_tag (u "a") (Some img) [(u "href", shelved_href)])
         | None => ret img
         end ;;
  shelve out.
Definition image (text : str) : M str := replace_allM (rx_re IMAGE_RE) f_image text.

(** ** Glyphs *)

(** [make_glyph_replacers], src/parser.rs:82-147 *)
Definition glyph_replacers (html5 : bool) : list (rx * str) :=
  [ (GL_DIM, u "$1&#215;$2");
    (GL_APOS, u "$1&#8217;$2");
    (GL_BACKIN, u "$1&#8217;$2");
    (GL_SOPENB, u "$1&#8216;");
    (GL_SCLOSE, u "$1&#8217;");
    (GL_SOPEN, u "&#8216;");
    (GL_DOPENB, u "$1&#8220;");
    (GL_DCLOSE, u "$1&#8221;");
    (GL_DOPEN, u "&#8220;");
    (GL_ELLIPSIS, u "$1&#8230;");
    (GL_AMP, u "$1&amp;$2");
    (GL_EMDASH, u "$1&#8212;$2");
    (GL_ENDASH, u " &#8211; ");
    (GL_TM, u "$1&#8482;");
    (GL_REG, u "$1&#174;");
    (GL_COPY, u "$1&#169;");
    (GL_HALF, u "&#189;");
    (GL_QUARTER, u "&#188;");
    (GL_3QUARTER, u "&#190;");
    (GL_DEGREE, u "&#176;");
    (GL_PLUSMINUS, u "&#177;");
    (GL_ACRONYM, if html5 then u "<abbr title=""$2"">$1</abbr>"
                 else u "<acronym title=""$2"">$1</acronym>") ].

(** [multi_replace], src/regextra.rs:106-120 *)
Definition multi_replace (text : str) (changes : list (rx * str)) : str :=
  fold_left (fun t c => replace_tmpl (rx_re (fst c)) (snd c) t) changes text.

(** The two tables are constants (src/parser.rs:1220-1222). *)
Definition HTML5_GLYPH_REPLACERS : list (rx * str) := glyph_replacers true.
Definition XHTML_GLYPH_REPLACERS : list (rx * str) := glyph_replacers false.
Definition all_replacers : list (rx * str) :=
  (match t_html T with HTML5 => HTML5_GLYPH_REPLACERS | XHTML => XHTML_GLYPH_REPLACERS end)
  ++ [(DYN_3PLUS_RE, t_dyn T)].

(** One chunk of text outside of tags, src/parser.rs:1237-1252 *)
Definition glyph_chunk (raw_line : str) : str :=
  let raw_line :=
    if t_restricted T then raw_line
    else replace_char (replace_char (replace_all (rx_re LONE_AMP_RE) (fun _ => u "&amp;") raw_line)
                                    60 (u "&lt;")) 62 (u "&gt;") in
  multi_replace raw_line all_replacers.

Fixpoint glyph_chunks (even : bool) (l : list str) : list str :=
  match l with
  | [] => []
  | x :: l' => (if even then glyph_chunk x else x) :: glyph_chunks (negb even) l'
  end.

(** [glyphs], src/parser.rs:1219-1258 *)
Definition glyphs (text : str) : M str :=
  chunks <- splitM GLYPH_SPLITTER_RE (trim_end_matches 10 text) ;;
  ret (List.concat (glyph_chunks true chunks)).

(** [glyph_quoted_quote], src/parser.rs:1747-1810 *)
Definition matching_quote (q : N) : option N :=
  if q =? 34 then Some 34            (* double quote *)
  else if q =? 39 then Some 39       (* single quote *)
  else if q =? 40 then Some 41
  else if q =? 123 then Some 125
  else if q =? 91 then Some 93
  else if q =? 171 then Some 187     (* « » *)
  else if q =? 187 then Some 171
  else if q =? 8249 then Some 8250   (* ‹ › *)
  else if q =? 8250 then Some 8249
  else if q =? 8222 then Some 8220   (* „ “ *)
  else if q =? 8218 then Some 8216   (* ‚ ‘ *)
  else if q =? 8216 then Some 8217   (* ‘ ’ *)
  else if q =? 8221 then Some 8220   (* ” “ *)
  else None.
Definition opt_eqb (a : N) (b : option N) : bool :=
  match b with Some x => a =? x | None => false end.
Definition f_glyph_quoted_quote (h : hit) : M str :=
  pre <- capx 1 h ;;
  post <- capx 3 h ;;
  match pre, post with
  | pre_char :: _, post_char :: _ =>
      if negb (opt_eqb post_char (matching_quote pre_char)) then ret (h_text h) else
      let new_pre := if pre_char =? 34 then u "&#8220;"
                     else if pre_char =? 39 then u "&#8216;"
                     else if pre_char =? 32 then u "&nbsp;" else [pre_char] in
      let new_post := if post_char =? 34 then u "&#8221;"
                      else if post_char =? 39 then u "&#8217;"
                      else if post_char =? 32 then u "&nbsp;" else [post_char] in
      found <- capx 2 h ;;
      found <- (if Nat.ltb 1 (blen found) then g <- glyphs found ;; ret (trim_end g)
                else if seqb found (u """") then ret (u "&quot;")
                else ret found) ;;
      shelve (u " " ++ new_pre ++ found ++ new_post ++ u " ")
  | _, _ => panic UnreachableCode
  end.
Definition glyph_quoted_quote (text : str) : M str :=
  replace_allM (rx_re QUOTED_QUOTE_RE) f_glyph_quoted_quote text.

(** ** Spans *)

(** [store_tags], src/parser.rs:1588-1597 *)
Definition store_tags (open_tag close_tag : str) : M (str * str) :=
  i <- next_ref ;;
  modify (fun s => set_ref_cache (nm_insert i open_tag (ps_ref_cache s)) s) ;;;
  j <- next_ref ;;
  modify (fun s => set_ref_cache (nm_insert j close_tag (ps_ref_cache s)) s) ;;;
  ret (t_uid T ++ dec i ++ u ":ospan ", u " " ++ t_uid T ++ dec j ++ u ":cspan").

(** The tag names, src/parser.rs:1548-1560 *)
Definition span_tag (marker : str) : M str :=
  if seqb marker (u "*") then ret (u "strong")
  else if seqb marker (u "**") then ret (u "b")
  else if seqb marker (u "??") then ret (u "cite")
  else if seqb marker (u "_") then ret (u "em")
  else if seqb marker (u "__") then ret (u "i")
  else if seqb marker (u "-") then ret (u "del")
  else if seqb marker (u "%") then ret (u "span")
  else if seqb marker (u "+") then ret (u "ins")
  else if seqb marker (u "~") then ret (u "sub")
  else if seqb marker (u "^") then ret (u "sup")
  else panic UnreachableCode.

(** The closure of [span], src/parser.rs:1546-1578; [rec] is the recursive call. *)
Definition f_span (rec : str -> M str) (h : hit) : M str :=
  marker <- capx 2 h ;;
  tag <- span_tag marker ;;
  atts <- capx 3 h ;;
  ba <- block_attributes_parse atts ElNone true (t_restricted T) ;;
  let html_atts := ba_html_attrs ba in
  let html_atts := match cap_opt 4 h with
                   | Some cite => attr_insert (u "cite") (trim cite) html_atts
                   | None => html_atts
                   end in
  content0 <- capx 5 h ;;
  content <- rec content0 ;;
  stop <- capx 6 h ;;
  let '(pre, tail) := get_special_options (cap_or 1 h) (cap_or 7 h) in
  let open_tag := join_html_attributes (u "<" ++ tag) html_atts ++ u ">" in
  let close_tag := u "</" ++ tag ++ u ">" in
  ids <- store_tags open_tag close_tag ;;
  ret (pre ++ fst ids ++ content ++ stop ++ snd ids ++ tail).

(** [multi_replace_with_one], src/regextra.rs:126-141 *)
Definition multi_replace_with_one (text : str) (changes : list rx) (f : hit -> M str) : M str :=
  foldM (fun t r => replace_allM (rx_re r) f t) text changes.

(** [span], src/parser.rs:1535-1586.  Its recursion is bounded by
    [max_span_depth]; [n] is a bound on the nesting of calls. *)
Fixpoint span_n (n : nat) (text : str) : M str :=
  match n with
  | O => diverge
  | S n' =>
      modify (fun s => set_span_depth (ps_span_depth s + 1) s) ;;;
      s <- get ;;
      text <- (if ps_span_depth s <=? t_max_span_depth T
               then multi_replace_with_one text TAG_PATTERNS (f_span (span_n n'))
               else ret text) ;;
      modify (fun s => set_span_depth (ps_span_depth s - 1) s) ;;;
      ret text
  end.
Definition span (text : str) : M str := span_n (S (S (N.to_nat (t_max_span_depth T)))) text.

(** [retrieve_tags], src/parser.rs:1599-1627 *)
Definition retrieve_tag_hit (h : hit) : M str :=
  token <- capx 1 h ;;
  tag_id <- of_opt BadNumber (parse_uint u32_max token) ;;
  s <- get ;;
  ret (match assocN tag_id (ps_ref_cache s) with Some x => x | None => [] end).
Definition retrieve_tags (text : str) : M str :=
  acquire ;;;
  open_tag_re <- cached 1608 [] (ospan_token_re (t_uid T)) ;;
  result <- replace_allM (rx_re open_tag_re) retrieve_tag_hit text ;;
  release ;;;
  acquire ;;;
  close_tag_re <- cached 1619 [] (cspan_token_re (t_uid T)) ;;
  result <- replace_allM (rx_re close_tag_re) retrieve_tag_hit result ;;
  release ;;;
  ret result.

(** ** Links *)

(** The search loop of [mark_start_of_links], src/parser.rs:671-720.  Vectors
    that are popped from the end are kept reversed: [quotes] is
    [possible_start_quotes], [parts] is [linkparts].  The result is the pair
    ([quotes], [parts]). *)
Definition start_nospace (p : str) : bool := is_match (rx_re START_NOSPACE_RE) p.
Definition end_nospace (p : str) : bool := is_match (rx_re END_NOSPACE_RE) p.
Definition piece_delta (p : str) : Z :=
  ((if end_nospace p then 1 else 0) - (if start_nospace p then 1 else 0))%Z.
Fixpoint mark_loop (n : nat) (quotes : list str) (possibility : str) (parts : list str)
                   (balanced : Z) (first : bool) : M (list str * list str) :=
  match n with
  | O => diverge
  | S n' =>
      let parts := possibility :: parts in
      if negb (is_empty possibility) then
        let balanced := (balanced + piece_delta possibility)%Z in
        let '(possibility, quotes) :=
          match quotes with p :: q => (p, q) | [] => (possibility, []) end in
        if (balanced <=? 0)%Z then ret (possibility :: quotes, parts)
        else mark_loop n' quotes possibility parts balanced first
      else
        let balanced := (if first then balanced + 1 else balanced - 1)%Z in
        match quotes with
        | [] => ret ([], tl parts)
        | p :: q =>
            let balanced := if is_empty p || ends_with (u " ") p then 0%Z else balanced in
            if (balanced <=? 0)%Z then ret (p :: q, parts)
            else mark_loop n' q p parts balanced false
        end
  end.

(** One slice, src/parser.rs:650-735 *)
Definition mark_slice (s : str) : M str :=
  if negb (contains_char 34 s) then ret s else
  match rev (split_char 34 s) with
  | [] => panic UnreachableCode
  | possibility :: quotes =>
      r <- mark_loop fuel quotes possibility [] 0%Z true ;;
      let link_content := join (u """") (snd r) in
      let pre_link := join (u """") (rev (fst r)) in
      ret (pre_link ++ t_uid T ++ u "linkStartMarker:""" ++ link_content)
  end.

(** [mark_start_of_links], src/parser.rs:632-742 *)
Definition mark_start_of_links (text : str) : M str :=
  slices <- splitM SLICE_RE text ;;
  match slices with
  | [] | [_] => ret text
  | _ =>
      output <- mapM mark_slice (removelast slices) ;;
      ret (join (u """:") (output ++ [last slices []]))
  end.

(** The trimming of a URL, src/parser.rs:1360-1430.  [chars] is [url_chars]
    reversed.  The result is (url_chars reversed, pop, pre). *)
Definition stop_punct (c : N) : bool := contains_char c (u "!?:;.,").
Fixpoint trim_url (n : nat) (url : str) (chars pop pre : str) (counts : counter) (first : bool)
  : M (str * str * str) :=
  match n with
  | O => diverge
  | S n' =>
      match chars with
      | [] => ret (chars, pop, pre)
      | c :: rest =>
          if stop_punct c then trim_url n' url rest (c :: pop) pre counts false
          else if c =? 62 then
            match captures (rx_re LINK_CLOSE_TAG_RE) (rev rest) with
            | Some h =>
                kept <- capx 1 h ;;
                tag <- capx 2 h ;;
                trim_url n' url (rev kept) (tag ++ [c] ++ pop) pre counts false
            | None => ret (rest, pop, pre)
            end
          else if c =? 93 then
            o <- cc_get 91 counts ;;
            counts <- match o with
                      | None => cc_set 91 (Some (N.of_nat (count_char 91 url))) counts
                      | Some _ => ret counts
                      end ;;
            opened <- cc_get 91 counts ;;
            closed <- cc_get 93 counts ;;
            if match opened, closed with Some a, Some b => a =? b | None, None => true | _, _ => false end
            then ret (chars, pop, pre)
            else
              counts <- cc_dec 93 counts ;;
              trim_url n' url rest pop (if first then [] else pre) counts false
          else if c =? 41 then
            o <- cc_get 41 counts ;;
            counts <- match o with
                      | None => k <- cc_set 40 (Some (N.of_nat (count_char 40 url))) counts ;;
                                cc_set 41 (Some (N.of_nat (count_char 41 url))) k
                      | Some _ => ret counts
                      end ;;
            opened <- cc_get 40 counts ;;
            closed <- cc_get 41 counts ;;
            if match opened, closed with Some a, Some b => a =? b | None, None => true | _, _ => false end
            then ret (chars, pop, pre)
            else
              counts <- cc_dec 41 counts ;;
              trim_url n' url rest (c :: pop) pre counts false
          else ret (chars, pop, pre)
      end
  end.

(** The cutting of square bracket stuff, src/parser.rs:1319-1355: (url, tight). *)
Definition cut_brackets (url : str) : str * str :=
  if Nat.ltb 0 (count_char 93 url) then
    let '(url, tight) :=
      match captures (rx_re LINK_URL_TIGHT_RE) url with
      | Some h => (cap_or 1 h, cap_or 2 h)
      | None => (url, [])
      end in
    match captures (rx_re LINK_URL_END_RE) url with
    | Some h => (cap_or 1 h, cap_or 2 h ++ tight)
    | None => (url, tight)
    end
  else (url, []).

(** The closure of [replace_links], src/parser.rs:1286-1486 *)
Definition f_link (h : hit) : M str :=
  let pre := cap_or 1 h in
  inner0 <- capx 2 h ;;
  let inner := replace_char inner0 10 (br_tag T) in
  url0 <- capx 3 h ;;
  if is_empty inner then ret (pre ++ u """" ++ inner ++ u """:" ++ url0) else
  let '(atts, text, title) :=
    match captures (rx_re LINK_BLOCK_RE) inner with
    | Some m =>
        let m_text := cap_or 2 m in
        (cap_or 1 m, (if is_empty m_text then inner else m_text), cap_or 4 m)
    | None => ([], inner, [])
    end in
  let '(url1, tight) := cut_brackets url0 in
  counts <- cc_set 93 (Some (N.of_nat (count_char 93 url0))) (cc_new [91; 93; 40; 41]) ;;
  r <- trim_url (S (List.length url1)) url1 (rev url1) [] pre counts true ;;
  let '(chars, pop, pre) := r in
  url <- unrestrict_url (rev chars) ;;
  let uri_parts := url_parse W url in
  let scheme_in_list := scheme_allowed (url_scheme uri_parts) in
  let is_valid := is_empty (url_scheme uri_parts) || scheme_in_list in
  if negb is_valid then ret (replace_str (h_text h) (needle (t_uid T)) []) else
  text <- (if seqb text (u "$") then
             if scheme_in_list then ret (make_url_readable url)
             else
               s <- get ;;
               match assoc url (ps_urlrefs s) with
               | Some rurl => ret (encode_html (make_url_readable (us_source rurl)) true true)
               | None => ret url
               end
           else ret text) ;;
  let text := trim text in
  let title := encode_html title false false in
  text <- (if t_noimage T then ret text else image text) ;;
  text <- span text ;;
  text <- glyphs text ;;
  url_id <- shelve_url (Normalized (url_to_string uri_parts)) ;;
  ba <- block_attributes_parse atts ElNone true (t_restricted T) ;;
  let attributes := attr_insert (u "href") url_id (ba_html_attrs ba) in
  attributes <- (if is_empty title then ret attributes
                 else id <- shelve title ;; ret (attr_insert (u "title") id attributes)) ;;
  let attributes := match t_rel T with
                    | Some rel => attr_insert (u "rel") rel attributes
                    | None => attributes
                    end in
  a_shelf_id <- shelve (generate_tag (u "a") (Some text) attributes) ;;
  ret (pre ++ a_shelf_id ++ pop ++ tight).

(** The loop, src/parser.rs:1489-1498 *)
Fixpoint link_loop (n : nat) (pattern : rx) (text : str) : M str :=
  match n with
  | O => diverge
  | S n' =>
      if contains (needle (t_uid T)) text then
        new_text <- replace_allM (rx_re pattern) f_link text ;;
        if seqb new_text text then ret new_text else link_loop n' pattern new_text
      else ret text
  end.

(** [replace_links], src/parser.rs:1260-1499 *)
Definition replace_links (text : str) : M str :=
  acquire ;;;
  pattern <- cached 1266 [] (link_re (t_uid T)) ;;
  result <- link_loop fuel pattern text ;;
  release ;;;
  ret result.

(** [links], src/parser.rs:621-625 *)
Definition links (text : str) : M str :=
  marked_text <- mark_start_of_links text ;;
  replace_links marked_text.

End WithSettings.
