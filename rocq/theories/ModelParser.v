(** src/parser.rs, part 2: notes, footnotes, lists, tables (with src/table.rs),
    blocks (with src/block.rs:279-446), [parse] and the settings. *)
From Coq Require Import ZArith.
From Verif Require Import Str Unicode Regex RegexParse RegexSnips ModelBase ModelHtml ModelUrl
  ModelAttrs ModelInline.

(** ** Line breaks inside tags *)

(** [str::to_lowercase].  The context dependent case of a final sigma (both forms
    take two bytes and neither is compared with anything) is not modelled. *)
Definition to_lowercase (s : str) : str := flat_map lower_char s.

(** [str::find('\n')] as a byte offset *)
Fixpoint bfind_nl (s : str) : option nat :=
  match s with
  | [] => None
  | c :: s' => if c =? 10 then Some O else option_map (fun k => (utf8_len c + k)%nat) (bfind_nl s')
  end.

Definition ascii_lower (c : N) : N := if (65 <=? c) && (c <=? 90) then c + 32 else c.

(** [eq_ignore_ascii_case], src/parser.rs:1006-1012 *)
Definition eq_ignore_ascii_case (a b : str) : bool :=
  Nat.eqb (blen a) (blen b) &&
  forallb (fun p => ascii_lower (fst p) =? ascii_lower (snd p)) (combine a b).

Definition STOP_PREFIXES : list str :=
  Eval vm_compute in [u "</dd>"; u "</dt>"; u "</li>"; u "<br/>"; u "<br>"; u "<br />"].

(** [STOP_PREFIXES.iter().any(…)], src/parser.rs:1038-1042; the offset is in bytes. *)
Fixpoint stop_prefix (l : list str) (lc_text : str) (pos : nat) : M bool :=
  match l with
  | [] => ret false
  | p :: l' =>
      prefix <- of_opt BadSlice (bslice (pos - Nat.min (blen p) pos) pos lc_text) ;;
      if eq_ignore_ascii_case prefix p then ret true else stop_prefix l' lc_text pos
  end.

Definition bad_next (s : str) : bool :=
  match s with c :: _ => is_ws c || (c =? 124) | [] => false end.

(** The loop of [insert_brs], src/parser.rs:1029-1049; [n] bounds the number of
    newlines.  The result is ([output], [next_start]). *)
Fixpoint brs_loop (n : nat) (text lc_text br : str) (next_start : nat) (output : str) : M (str * nat) :=
  match n with
  | O => diverge
  | S n' =>
      tail <- of_opt BadSlice (bdrop next_start lc_text) ;;
      match bfind_nl tail with
      | None => ret (output, next_start)
      | Some rel =>
          let pos := (next_start + rel)%nat in
          part <- of_opt BadSlice (bslice next_start pos text) ;;
          after <- of_opt BadSlice (bdrop (S pos) lc_text) ;;
          stop <- (if bad_next after then ret true else stop_prefix STOP_PREFIXES lc_text pos) ;;
          brs_loop n' text lc_text br (S pos)
                   (output ++ part ++ (if stop then [] else br) ++ [10])
      end
  end.

(** [insert_brs], src/parser.rs:1020-1056 *)
Definition insert_brs (text br : str) : M str :=
  if Nat.eqb (count_char 10 text) O then ret text else
  let lc_text := to_lowercase text in
  r <- brs_loop (S (List.length lc_text)) text lc_text br O [] ;;
  if is_empty (fst r) then ret text
  else rest <- of_opt BadSlice (bdrop (snd r) text) ;; ret (fst r ++ rest).

Section WithSettings.
Variable W : world.
Variable T : textile.
Variable fuel : nat.

(** [do_tag_br], src/parser.rs:1004-1073 *)
Definition f_tag_br (tag : str) (h : hit) : M str :=
  c2 <- capx 2 h ;;
  content <- insert_brs c2 (br_tag T) ;;
  c1 <- capx 1 h ;;
  ret (u "<" ++ tag ++ c1 ++ u ">" ++ content ++ u "</" ++ tag ++ u ">").
Definition do_tag_br (tag input : str) : M str :=
  acquire ;;;
  pattern <- cached 1060 tag (tag_br_re tag) ;;
  result <- replace_allM (rx_re pattern) (f_tag_br tag) input ;;
  release ;;;
  ret result.

(** [do_p_br], src/parser.rs:1075-1092 *)
Definition f_p_br (h : hit) : M str :=
  text <- capx 3 h ;;
  let text := replace_all (rx_re PBR_BR_RE) (fun _ => [10]) text in
  let text := replace_all (rx_re PBR_NEWLINE_RE) (fun _ => br_tag T) text in
  c1 <- capx 1 h ;;
  c2 <- capx 2 h ;;
  c4 <- capx 4 h ;;
  ret (u "<" ++ c1 ++ c2 ++ u ">" ++ text ++ c4).
Definition do_p_br (input : str) : M str := replace_allM (rx_re PBR_TAG_RE) f_p_br input.

(** ** Footnotes and notes *)

Definition new_id : M str :=
  i <- increment_link_index ;; ret (t_link_prefix T ++ dec i).

(** [footnote_ref], src/parser.rs:1095-1133 *)
Definition f_footnote_id (h : hit) : M str :=
  match_id <- capx 1 h ;;
  s <- get ;;
  atts <- (if has_key match_id (ps_footnotes s) then ret [(u "class", u "footnote")]
           else
             fn_id <- new_id ;;
             modify (fun s => set_footnotes (im_insert match_id fn_id (ps_footnotes s)) s) ;;;
             ret [(u "class", u "footnote"); (u "id", u "fnrev" ++ fn_id)]) ;;
  s <- get ;;
  fn_id <- of_opt MissingKey (assoc match_id (ps_footnotes s)) ;;
  let link_tag := generate_tag (u "a") (Some match_id) [(u "href", u "#fn" ++ fn_id)] in
  let sup_tag := if seqb (cap_or 2 h) (u "!") then generate_tag (u "sup") (Some match_id) atts
                 else generate_tag (u "sup") (Some link_tag) atts in
  space <- capx 3 h ;;
  ret (sup_tag ++ space).
Definition footnote_ref (text : str) : M str := replace_allM (rx_re FOOTNOTE_RE) f_footnote_id text.

(** [note_ref], src/parser.rs:1133-1200 *)
Definition f_parse_note_refs (h : hit) : M str :=
  atts <- capx 1 h ;;
  label <- capx 2 h ;;
  nolink <- capx 3 h ;;
  ba <- block_attributes_parse atts ElNone true (t_restricted T) ;;
  s <- get ;;
  num <- match match assoc label (ps_notes s) with Some n => n_seq n | None => None end with
         | Some num => ret num
         | None =>
             let num := dec (ps_note_index s) in
             modify (fun s => set_note_index (ps_note_index s + 1)
                                (set_notes (bt_insert label (mk_note [] None None None (Some num) []) (ps_notes s)) s)) ;;;
             ret num
         end ;;
  refid <- new_id ;;
  s <- get ;;
  nt <- of_opt MissingKey (assoc label (ps_notes s)) ;;
  id <- (if is_empty (n_id nt) then new_id else ret []) ;;
  let result := u "<span id=""noteref" ++ refid ++ u """>" ++ num ++ u "</span>" in
  let result := if seqb nolink (u "!") then result
                else u "<a href=""#note" ++ id ++ u """>" ++ result ++ u "</a>" in
  modify (fun s => set_notes
    (bt_insert label (mk_note (if is_empty (n_id nt) then id else n_id nt)
                              (n_content nt) (n_link nt) (n_attrs nt) (n_seq nt)
                              (n_refids nt ++ [refid])) (ps_notes s)) s) ;;;
  ret (generate_tag (u "sup") (Some result) (ba_html_attrs ba)).
Definition note_ref (text : str) : M str := replace_allM (rx_re NOTEREF_RE) f_parse_note_refs text.

(** [char_code_to_entity], [make_back_ref_link], src/parser.rs:266-305 *)
Definition char_code_to_entity (c : N) : M str := unescape (u "&#" ++ dec c ++ u ";").
Definition back_ref (refid sym : str) : str :=
  u "<sup><a href=""#noteref" ++ refid ++ u """>" ++ sym ++ u "</a></sup>".
Fixpoint back_refs (refids : list str) (i : N) (allow_inc : bool) : M (list str) :=
  match refids with
  | [] => ret []
  | refid :: l =>
      sym <- char_code_to_entity i ;;
      rest <- back_refs l (if allow_inc then i + 1 else i) allow_inc ;;
      ret (back_ref refid sym :: rest)
  end.
Definition make_back_ref_link (info : note) (g_links : str) (i : N) : M str :=
  let backlink_type := match n_link info with Some l => l | None => g_links end in
  if seqb backlink_type (u "!") then ret []
  else if seqb backlink_type (u "^") then
    match n_refids info with
    | [] => ret []
    | refid :: _ => sym <- char_code_to_entity i ;; ret (back_ref refid sym)
    end
  else
    l <- back_refs (n_refids info) i (negb (contains_char i SYMS_RE_S)) ;;
    ret (join (u " ") l).

(** The re-keying of the notes, src/parser.rs:309-322 *)
Definition rekey (acc : list (str * note) * list (str * note)) (kv : str * note) :=
  let '(o, unref) := acc in
  let '(label, info) := kv in
  match n_seq info with
  | Some i => (bt_insert i (mk_note (n_id info) (n_content info) (n_link info) (n_attrs info)
                                    (Some label) (n_refids info)) o, unref)
  | None => (o, bt_insert label info unref)
  end.

(** The items of a note list, src/parser.rs:341-368 *)
Definition note_item (g_links : str) (start : N) (kv : str * note) : M str :=
  let info := snd kv in
  links <- make_back_ref_link info g_links start ;;
  ret (match n_attrs info, n_content info with
       | Some atts, Some content =>
           tab ++ tab ++ u "<li" ++ atts ++ u ">" ++ links ++ u "<span id=""note" ++ n_id info
           ++ u """> </span>" ++ content ++ u "</li>"
       | _, _ =>
           tab ++ tab ++ u "<li>" ++ links ++ u " Undefined Note [#"
           ++ match n_seq info with Some l => l | None => [] end ++ u "].</li>"
       end).
Definition unref_item (kv : str * note) : str :=
  let info := snd kv in
  tab ++ tab ++ u "<li" ++ match n_attrs info with Some a => a | None => [] end ++ u ">"
  ++ match n_content info with Some c => c | None => [] end ++ u "</li>".

(** [f_note_lists], src/parser.rs:330-378 *)
Definition f_note_lists (h : hit) : M str :=
  att <- capx 1 h ;;
  g_links <- capx 3 h ;;
  extras <- capx 4 h ;;
  start_char <- match cap_opt 2 h with
                | Some (c :: _) => ret c
                | Some [] => panic UnreachableCode
                | None => ret 97
                end ;;
  let index := g_links ++ extras ++ [start_char] in
  s <- get ;;
  result <- (if has_key index (ps_nl_cache s) then ret []
             else
               items <- mapM (note_item g_links start_char) (ps_notes s) ;;
               let more := if seqb extras (u "+") then map unref_item (ps_unref s) else [] in
               let result := join nl (items ++ more) in
               modify (fun s => set_nl_cache (im_insert index result (ps_nl_cache s)) s) ;;;
               ret result) ;;
  if is_empty result then ret []
  else
    ba <- block_attributes_parse att ElNone true (t_restricted T) ;;
    ret (u "<ol" ++ ba_to_string ba ++ u ">" ++ nl ++ result ++ nl ++ tab ++ u "</ol>").

(** [place_note_lists], src/parser.rs:309-380 *)
Definition place_note_lists (text : str) : M str :=
  modify (fun s =>
    match ps_notes s with
    | [] => s
    | _ => let '(o, unref) := fold_left rekey (ps_notes s) ([], ps_unref s) in
           set_unref unref (set_notes o s)
    end) ;;;
  replace_allM (rx_re TEXT_NOTELIST_RE) f_note_lists text.

(** ** Lists *)

(** [ListItem], src/parser.rs:857-863 *)
Record list_item := mk_li { li_atts : str; li_content : str; li_tl : str; li_st : str }.
Definition li_level (i : list_item) : nat := List.length (li_tl i).

(** [list_type], src/parser.rs:865-873 *)
Definition list_type (tl : str) : str :=
  match captures (rx_re LIST_START_RE) tl with
  | Some h => if ends_with (u "#") (cap_or 1 h) then u "ol" else u "ul"
  | None => u "dl"
  end.

(** Reading the items, src/parser.rs:877-899; the items are kept reversed. *)
Definition read_item (items : list list_item) (line : str) : list list_item :=
  match captures (rx_re LIST_LINE_PARSER) line with
  | Some m => mk_li (cap_or 3 m) (cap_or 4 m) (cap_or 1 m) (cap_or 2 m) :: items
  | None =>
      match items with
      | [] => []
      | i :: items' => mk_li (li_atts i) (li_content i ++ nl ++ line) (li_tl i) (li_st i) :: items'
      end
  end.
Definition read_items (lines : list str) : list list_item := rev (fold_left read_item lines []).

(** The tag of an item, src/parser.rs:911-917 *)
Definition item_tag (tl : str) : str :=
  if contains_char 59 tl then u "dt" else if contains_char 58 tl then u "dd" else u "li".

(** The numbering of an ordered list, src/parser.rs:924-946: the new value of the
    counter and the [start] attribute. *)
Definition ol_number (current : N) (first_of_level show_item : bool) (st : str) : M (N * option str) :=
  let v := if first_of_level then
             if is_empty st then 1
             else if seqb st (u "_") then current
             else match parse_uint usize_max st with Some n => n | None => current end
           else current in
  let start := if first_of_level && negb (is_empty st) then Some (dec v) else None in
  if show_item then
    if v =? usize_max then panic Overflow else ret (v + 1, start)
  else ret (v, start).

(** Closing of the finished lists, src/parser.rs:973-986 *)
Definition closes (next : option nat) (k : str) : bool :=
  match next with Some l => Nat.ltb l (List.length k) | None => true end.
Definition close_one (tabs litem : str) (kv : str * N) : str :=
  let '(k, v) := kv in
  if v =? 2 then []
  else nl ++ tabs ++ u "</" ++ list_type k ++ u ">"
       ++ (if Nat.ltb 1 (List.length k) then u "</" ++ litem ++ u ">" else []).

(** One item, src/parser.rs:905-989: the new open lists and the line. *)
Definition list_line (prev : option list_item) (next : option nat) (lists : list (str * N)) (item : list_item)
  : M (list (str * N) * str) :=
  let tl := li_tl item in
  let content := trim (li_content item) in
  let ltype := list_type tl in
  let litem := item_tag tl in
  let show_item := negb (is_empty content) in
  ba <- block_attributes_parse (li_atts item) ElNone true (t_restricted T) ;;
  let atts := ba_html_attrs ba in
  atts <- (if seqb ltype (u "ol") then
             s <- get ;;
             let current := match assoc tl (ps_ol_starts s) with Some n => n | None => 1 end in
             let first_of_level := match prev with
                                   | Some p => Nat.ltb (li_level p) (li_level item)
                                   | None => true
                                   end in
             r <- ol_number current first_of_level show_item (li_st item) ;;
             modify (fun s => set_ol_starts (im_insert tl (fst r) (ps_ol_starts s)) s) ;;;
             ret (attr_add (u "start") (snd r) atts)
           else ret atts) ;;
  let lists := match prev with
               | Some p => if contains_char 59 (li_tl p) && contains_char 58 tl
                           then im_insert tl 2 lists else lists
               | None => lists
               end in
  let tabs := repeat_str tab (li_level item - 1) in
  let '(lists, line) :=
    if negb (has_key tl lists) then
      (im_insert tl 1 lists,
       tabs ++ u "<" ++ ltype ++ attrs_to_string atts ++ u ">"
       ++ (if show_item then nl ++ tabs ++ tab ++ u "<" ++ litem ++ u ">" ++ content else []))
    else (lists,
          if show_item then tabs ++ tab ++ u "<" ++ litem ++ attrs_to_string atts ++ u ">" ++ content else []) in
  let line := if show_item && match next with Some l => Nat.leb l (li_level item) | None => true end
              then line ++ u "</" ++ litem ++ u ">" else line in
  let closing := filter (fun kv => closes next (fst kv)) (rev lists) in
  ret (filter (fun kv => negb (closes next (fst kv))) lists,
       line ++ flat_map (close_one tabs litem) closing).

Fixpoint list_lines (prev : option list_item) (lists : list (str * N)) (items : list list_item)
  : M (list str) :=
  match items with
  | [] => ret []
  | item :: items' =>
      r <- list_line prev (option_map li_level (hd_error items')) lists item ;;
      rest <- list_lines (Some item) (fst r) items' ;;
      ret (snd r :: rest)
  end.

(** [f_textile_list], src/parser.rs:878-995 *)
Definition last_litem (items : list list_item) : str :=
  match rev items with i :: _ => item_tag (li_tl i) | [] => [] end.
Definition f_textile_list (h : hit) : M str :=
  lines <- splitM LIST_SPLITTER (h_text h) ;;
  let items := read_items lines in
  match items with
  | [] => ret (h_text h)
  | i :: _ =>
      if Nat.ltb 1 (li_level i) then ret (h_text h)
      else
        out <- list_lines None [] items ;;
        do_tag_br (last_litem items) (join nl out)
  end.

(** [textile_lists], src/parser.rs:845-998 *)
Definition textile_lists (text : str) : M str := replace_allM (rx_re LIST_RE) f_textile_list text.

(** ** Definition lists, tables and blocks, which call [graf] *)
Section WithGraf.
Variable graf : str -> M str.

(** One line of [f_rc_list], src/parser.rs:789-832 *)
Definition rc_line (out : list str) (line : str) : M (list str) :=
  match captures (rx_re RC_ATTR_CONTENT_RE) line with
  | None => ret out
  | Some m =>
      atts <- capx 1 m ;;
      content <- capx 2 m ;;
      let content := trim content in
      ba <- block_attributes_parse atts ElNone true (t_restricted T) ;;
      let html_atts := ba_to_string ba in
      '(term, definition) <- match captures (rx_re RC_XM_RE) content with
                             | Some xm => a <- capx 1 xm ;; b <- capx 2 xm ;;
                                          ret (trim a, trim_matches 32 b)
                             | None => ret (content, [])
                             end ;;
      let out := match out with
                 | [] => [if is_empty definition then u "<dl" ++ html_atts ++ u ">" else u "<dl>"]
                 | _ => out
                 end in
      if is_empty term then ret out else
      let def1 := replace_char (trim definition) 10 (br_tag T) in
      let def2 := match definition with
                  | c :: _ => if c =? 10 then u "<p>" ++ def1 ++ u "</p>" else def1
                  | [] => def1
                  end in
      term <- graf (replace_char term 10 (br_tag T)) ;;
      definition <- graf def2 ;;
      ret (out ++ [tab ++ u "<dt" ++ html_atts ++ u ">" ++ term ++ u "</dt>"]
           ++ (if is_empty definition then [] else [tab ++ u "<dd>" ++ definition ++ u "</dd>"]))
  end.
Definition f_rc_list (h : hit) : M str :=
  lines <- splitM RC_SPLITTER (h_text h) ;;
  out <- foldM rc_line [] lines ;;
  ret (join nl (match out with [] => [] | _ => out ++ [u "</dl>"] end)).

(** [redcloth_list], src/parser.rs:769-838 *)
Definition redcloth_list (text : str) : M str := replace_allM (rx_re RC_PATTERN) f_rc_list text.

(** [process_caption], src/table.rs:19-23 *)
Definition process_caption (capts cap : str) : M str :=
  ba <- block_attributes_parse capts ElNone true (t_restricted T) ;;
  ret (tab ++ generate_tag (u "caption") (Some (trim cap)) (ba_html_attrs ba) ++ nl).

(** [TableSection::process], [Row::process], src/table.rs:36-39, 55-60 *)
Definition section_process (sec : str * block_attrs * list str) : str :=
  let '(tag, atts, rows) := sec in
  generate_tag tag (Some (List.concat rows ++ nl ++ tab)) (ba_html_attrs atts).
Definition row_process (cells : list str) (atts : html_attrs) : str :=
  nl ++ tab ++ tab ++ generate_tag (u "tr") (Some (List.concat cells ++ nl ++ tab ++ tab)) atts.

(** The columns of a colgroup, src/table.rs:134-150 *)
Fixpoint col_tags (first : bool) (cols : list str) : M str :=
  match cols with
  | [] => ret []
  | col :: cols' =>
      ba <- block_attributes_parse (trim col) ElCol true (t_restricted T) ;;
      let atts := ba_to_string ba in
      rest <- col_tags false cols' ;;
      ret (tab ++ u "<col" ++ (if first then u "group" ++ atts ++ u ">" else atts ++ u " />") ++ nl ++ rest)
  end.

(** One cell, src/table.rs:210-243 *)
Definition table_cell (cell : str) : M str :=
  let ctag := if is_match (rx_re HEADING_RE) cell then u "th" else u "td" in
  '(cell, cell_atts) <- match captures (rx_re CMTCH_RE) cell with
                        | Some m => catts <- capx 1 m ;; c <- capx 2 m ;;
                                    ba <- block_attributes_parse catts ElTd true (t_restricted T) ;;
                                    ret (c, ba_html_attrs ba)
                        | None => ret (cell, [])
                        end ;;
  cell <- (if t_lite T then ret cell
           else match captures (rx_re CELL_A_PATTERN_RE) cell with
                | Some a => space <- capx 1 a ;; c <- capx 2 a ;;
                            c <- redcloth_list c ;;
                            c <- textile_lists c ;;
                            ret (space ++ c)
                | None => ret []
                end) ;;
  do_tag_br ctag (nl ++ tab ++ tab ++ tab ++ generate_tag ctag (Some cell) cell_atts).

(** The state of the loop over the rows. *)
Record table_acc := mk_ta {
  ta_caption : str; ta_colgroup : str; ta_content : list str;
  ta_rgrp : option (str * block_attrs * list str); ta_groups : list str }.

Definition section_tag (part : str) : M str :=
  if seqb part (u "^") then ret (u "thead")
  else if seqb part (u "~") then ret (u "tfoot")
  else if seqb part (u "-") then ret (u "tbody")
  else panic UnreachableCode.

(** The caption, src/table.rs:115-132: [None] for the row means [continue]. *)
Definition row_caption (first : bool) (row : str) : M (option str * option str) :=
  if first then
    match captures (rx_re CAPTION_RE) row with
    | Some m =>
        capts <- capx 1 m ;; cap <- capx 2 m ;;
        caption <- process_caption capts cap ;;
        r <- capx 3 m ;;
        let new_row := trim_start r in
        ret (Some (nl ++ caption), if is_empty new_row then None else Some new_row)
    | None => ret (None, Some row)
    end
  else ret (None, Some row).

(** The column group, src/table.rs:135-165 *)
Definition row_colgroup (row : str) : M (str * option str) :=
  match captures (rx_re COLGROUP_RE) row with
  | Some m =>
      c <- capx 1 m ;;
      cols <- col_tags true (split_char 124 (replace_char c 46 [])) ;;
      let colgroup := cols ++ tab ++ u "</colgroup>" in
      ret (colgroup, match find_char 10 row with
                     | Some i => Some (trim_start (skipn i row))
                     | None => None
                     end)
  | None => ret ([], Some row)
  end.

(** The row group, src/table.rs:167-196 *)
Definition row_group (acc : table_acc) (row : str) : M (table_acc * str) :=
  match captures (rx_re GRPMATCH_RE) (trim_start row) with
  | Some m =>
      acc <- match cap_opt 2 m, cap_opt 3 m with
             | Some grpname, Some rgrpatts =>
                 let groups := match ta_rgrp acc with
                               | Some sec => ta_groups acc ++ [nl ++ tab ++ section_process sec]
                               | None => ta_groups acc
                               end in
                 tag <- section_tag grpname ;;
                 ba <- block_attributes_parse rgrpatts ElNone true (t_restricted T) ;;
                 ret (mk_ta (ta_caption acc) (ta_colgroup acc) (ta_content acc)
                            (Some (tag, ba, [])) groups)
             | _, _ => ret acc
             end ;;
      r <- capx 4 m ;;
      ret (acc, r)
  | None => ret (acc, row)
  end.

(** One row, src/table.rs:108-253 *)
Definition table_row (first : bool) (acc : table_acc) (row : str) : M table_acc :=
  '(caption, row) <- row_caption first (trim_start row) ;;
  let acc := match caption with
             | Some c => mk_ta c (ta_colgroup acc) (ta_content acc) (ta_rgrp acc) (ta_groups acc)
             | None => acc
             end in
  match row with
  | None => ret acc
  | Some row =>
      '(cg, row) <- row_colgroup row ;;
      let acc := mk_ta (ta_caption acc) (ta_colgroup acc ++ cg) (ta_content acc) (ta_rgrp acc) (ta_groups acc) in
      match row with
      | None => ret acc
      | Some row =>
          '(acc, row) <- row_group acc row ;;
          '(row, row_atts) <- match captures (rx_re RMTCH_RE) (trim_start row) with
                              | Some m => ratts <- capx 1 m ;; r <- capx 2 m ;;
                                          ba <- block_attributes_parse ratts ElTr true (t_restricted T) ;;
                                          ret (r, ba_html_attrs ba)
                              | None => ret (row, [])
                              end ;;
          cells <- mapM table_cell (tl (split_char 124 row)) ;;
          let line := row_process cells row_atts in
          ret (match ta_rgrp acc with
               | Some (tag, ba, rows) =>
                   mk_ta (ta_caption acc) (ta_colgroup acc) (ta_content acc)
                         (Some (tag, ba, rows ++ [line])) (ta_groups acc)
               | None =>
                   mk_ta (ta_caption acc) (ta_colgroup acc) (ta_content acc ++ [line]) None (ta_groups acc)
               end)
      end
  end.

Fixpoint table_rows (first : bool) (acc : table_acc) (rows : list str) : M table_acc :=
  match rows with
  | [] => ret acc
  | row :: rows' => acc <- table_row first acc row ;; table_rows false acc rows'
  end.

(** [process_table], src/table.rs:63-265 *)
Definition process_table (tatts rows_str : str) (summary : option str) : M str :=
  ba <- block_attributes_parse tatts ElTable true (t_restricted T) ;;
  let html_attrs := ba_html_attrs ba in
  let html_attrs := match summary with
                    | Some s => if is_empty s then html_attrs
                                else attr_insert (u "summary") (trim s) html_attrs
                    | None => html_attrs
                    end in
  pieces <- splitM COMPONENTS_RE rows_str ;;
  let rows := filter (fun r => negb (is_empty r)) pieces in
  acc <- table_rows true (mk_ta [] [] [] None []) rows ;;
  let groups := match ta_rgrp acc with
                | Some sec => ta_groups acc ++ [nl ++ tab ++ section_process sec]
                | None => ta_groups acc
                end in
  let content := ta_caption acc ++ ta_colgroup acc ++ List.concat groups ++ List.concat (ta_content acc)
                 ++ nl ++ tab in
  ret (tab ++ generate_tag (u "table") (Some content) html_attrs ++ nl ++ nl).

(** [table], src/parser.rs:744-767 *)
Definition table (text : str) : M str :=
  let text := text ++ nl ++ nl in
  match captures (rx_re TABLE_RE) text with
  | Some h => rows <- capx 3 h ;; process_table (cap_or 1 h) rows (cap_opt 2 h)
  | None => ret text
  end.

(** [parse_note_defs], src/parser.rs:224-262 *)
Definition parse_note_defs (h : hit) : M str :=
  label <- capx 1 h ;;
  link <- capx 2 h ;;
  att <- capx 3 h ;;
  content <- capx 4 h ;;
  s <- get ;;
  (if has_key label (ps_notes s) then ret tt
   else id <- new_id ;;
        modify (fun s => set_notes (bt_insert label (mk_note id None None None None []) (ps_notes s)) s)) ;;;
  note_content <- graf content ;;
  s <- get ;;
  match assoc label (ps_notes s) with
  | None => ret []
  | Some nt =>
      match n_link nt with
      | Some _ => ret []
      | None =>
          ba <- block_attributes_parse att ElNone true (t_restricted T) ;;
          modify (fun s => set_notes
            (bt_insert label (mk_note (n_id nt) (Some note_content)
                                      (if is_empty link then None else Some link)
                                      (Some (ba_to_string ba)) (n_seq nt) (n_refids nt)) (ps_notes s)) s) ;;;
          ret []
      end
  end.

(** [Block], src/block.rs:279-287 *)
Record blk := mk_blk {
  bk_outer_opening : str; bk_outer_closing : str;
  bk_inner_opening : str; bk_inner_closing : str;
  bk_content : str; bk_eat : bool }.

(** The footnote part of [Block::new], src/block.rs:344-387: the tag, the
    attributes and the content. *)
Definition block_footnote (tag attrs content : str) (ba : block_attrs) : M (str * block_attrs * str) :=
  match captures (rx_re FNID_RE) tag with
  | Some m =>
      m_fnid <- capx 1 m ;;
      s <- get ;;
      fnid <- match assoc m_fnid (ps_footnotes s) with
              | Some id => ret id
              | None => new_id
              end ;;
      let ba := match ba_class ba with
                | None => ba_set_class (Some (u "footnote")) ba
                | Some _ => ba
                end in
      let '(ba, sup_attrs) :=
        match ba_id ba with
        | None => (ba_set_id (Some (u "fn" ++ fnid)) ba, [])
        | Some _ => (ba, attr_insert (u "id") (u "fn" ++ fnid) [])
        end in
      let sup := if negb (contains_char 94 attrs) then generate_tag (u "sup") (Some m_fnid) sup_attrs
                 else generate_tag (u "sup")
                        (Some (generate_tag (u "a") (Some m_fnid) [(u "href", u "#fnrev" ++ fnid)]))
                        sup_attrs in
      ret (u "p", ba, sup ++ u " " ++ content)
  | None => ret (tag, ba, content)
  end.

(** The tag dependent part, src/block.rs:389-432: opening and closing tags,
    content, and whether the block is eaten. *)
Definition block_shape (new_tag : str) (cite : option str) (content : str) (ba : block_attrs)
                       (orig : html_attrs) : M blk :=
  if seqb new_tag (u "bq") then
    let atts := ba_html_attrs ba in
    atts <- match cite with
            | Some c => url <- unrestrict_url T c ;;
                        id <- shelve_url W T (Raw url) ;;
                        ret (attr_insert (u "cite") id atts)
            | None => ret atts
            end ;;
    ret (mk_blk (u "<blockquote" ++ attrs_to_string atts ++ u ">" ++ nl) (nl ++ u "</blockquote>")
                (tab ++ u "<p" ++ attrs_to_string orig ++ u ">") (u "</p>") content false)
  else if seqb new_tag (u "bc") then
    id <- shelve T (encode_html content true false) ;;
    let '(ba, inner_atts) :=
      match ba_lang ba with
      | Some lang =>
          (ba_set_lang None ba,
           if is_match (rx_re CODE_LANG_RE) lang
           then ba_html_attrs (ba_set_class (Some lang) ba_default) else [])
      | None => (ba, [])
      end in
    ret (mk_blk (u "<pre" ++ ba_to_string ba ++ u "><code" ++ attrs_to_string inner_atts ++ u ">")
                (u "</code></pre>") [] [] id false)
  else if seqb new_tag (u "pre") then
    id <- shelve T (encode_html content true false) ;;
    ret (mk_blk (u "<pre" ++ ba_to_string ba ++ u ">") (u "</pre>") [] [] id false)
  else if seqb new_tag (u "notextile") then
    id <- shelve T content ;;
    ret (mk_blk [] [] [] [] id false)
  else if seqb new_tag (u "###") then
    ret (mk_blk [] [] [] [] content true)
  else
    ret (mk_blk [] [] (u "<" ++ new_tag ++ ba_to_string ba ++ u ">") (u "</" ++ new_tag ++ u ">")
                content false).

(** [Block::new], src/block.rs:290-445 *)
Definition block_new (tag attrs : str) (cite : option str) (content : str) : M blk :=
  ba <- block_attributes_parse attrs ElNone true (t_restricted T) ;;
  let orig := ba_html_attrs ba in
  eaten <- (if seqb tag (u "p") then
              notedef <- replace_allM (rx_re NOTEDEF_RE) parse_note_defs content ;;
              ret (is_empty notedef)
            else ret false) ;;
  if eaten : bool then ret (mk_blk [] [] [] [] [] true) else
  '(new_tag, ba, content) <- block_footnote tag attrs content ba ;;
  b <- block_shape new_tag cite content ba orig ;;
  if bk_eat b then
    ret (mk_blk (bk_outer_opening b) (bk_outer_closing b) (bk_inner_opening b) (bk_inner_closing b) [] true)
  else
    c <- graf (bk_content b) ;;
    ret (mk_blk (bk_outer_opening b) (bk_outer_closing b) (bk_inner_opening b) (bk_inner_closing b) c false).

(** The variables of the loop of [block]; [out] is kept reversed. *)
Record block_acc := mk_bl {
  bl_out : list str; bl_ws : str; bl_eat_ws : bool; bl_ext : str; bl_tag : str; bl_atts : str;
  bl_cite : option str; bl_closing : str; bl_eat : bool }.

(** Appends to the last output, if any. *)
Definition push_last (x : str) (out : list str) : list str :=
  match out with [] => [] | o :: out' => (o ++ x) :: out' end.

(** The output for a block without a signature, src/parser.rs:1696-1714: the
    output, [eat] and the closing tag. *)
Definition anonymous_block (ext tag atts : str) (cite : option str) (closing : str) (eat : bool) (text : str)
  : M (str * bool * str) :=
  let raw_block := is_match (rx_re DIVIDER_RE) text in
  if negb (is_empty ext) || (negb (starts_with (u " ") text) && negb raw_block) then
    b <- block_new tag atts cite text ;;
    let content := bk_content b in
    ret (if is_empty content || (seqb tag (u "p") && negb (has_raw_text content)) then content
         else bk_inner_opening b ++ content ++ bk_inner_closing b,
         bk_eat b, bk_outer_closing b)
  else if raw_block && t_restricted T then
    id <- shelve T (encode_html text (t_restricted T) false) ;; ret (id, eat, closing)
  else if raw_block then
    id <- shelve T text ;; ret (id, eat, closing)
  else
    t <- graf text ;; ret (t, eat, closing).

(** One piece of the text, src/parser.rs:1657-1735 *)
Definition block_step (a : block_acc) (text : str) : M block_acc :=
  if is_empty (trim text) then
    ret (mk_bl (bl_out a) (if bl_eat_ws a then bl_ws a else bl_ws a ++ text) (bl_eat_ws a) (bl_ext a)
               (bl_tag a) (bl_atts a) (bl_cite a) (bl_closing a) (bl_eat a))
  else
  let '(tag, atts, cite, eat) :=
    if is_empty (bl_ext a) then (u "p", [], None, false)
    else (bl_tag a, bl_atts a, bl_cite a, bl_eat a) in
  let anonymous := match captures (rx_re (if t_lite T then TEXTILE_LIGHT_TAG_RE else TEXTILE_TAG_RE)) text with
                   | Some m => inl m
                   | None => inr tt
                   end in
  '(out, ext, tag, atts, cite, block_output, eat, closing, anon) <-
    match anonymous with
    | inl m =>
        let out := if is_empty (bl_ext a) then bl_out a else push_last (bl_closing a) (bl_out a) in
        let tag := cap_or 1 m in
        let atts := cap_or 2 m in
        let ext := cap_or 3 m in
        let cite := cap_opt 4 m in
        b <- block_new tag atts cite (cap_or 5 m) ;;
        ret (out, ext, tag, atts, cite,
             bk_outer_opening b ++ bk_inner_opening b ++ bk_content b ++ bk_inner_closing b
             ++ (if is_empty ext then bk_outer_closing b else []),
             bk_eat b, bk_outer_closing b, false)
    | inr _ =>
        r <- anonymous_block (bl_ext a) tag atts cite (bl_closing a) eat text ;;
        ret (bl_out a, bl_ext a, tag, atts, cite, fst (fst r), snd (fst r), snd r, true)
    end ;;
  block_output <- do_p_br block_output ;;
  let block_output := bl_ws a ++ replace_all (rx_re BR_TAG_RE) (fun _ => br_tag T) block_output in
  let out := if negb (is_empty ext) && (anon : bool) then push_last block_output out
             else if eat then out else block_output :: out in
  ret (mk_bl out (if eat then bl_ws a else []) eat ext tag atts cite closing eat).

(** [block], src/parser.rs:1629-1745 *)
Definition block (text : str) : M str :=
  pieces <- splitM MULTI_ENDLINE_RE text ;;
  a <- foldM block_step (mk_bl [] [] false [] [] [] None [] false) pieces ;;
  let out := if is_empty (bl_ext a) then bl_out a else push_last (bl_closing a) (bl_out a) in
  ret (List.concat (rev out)).

(** The body of [graf], src/parser.rs:1515-1533 *)
Definition graf_body (text : str) : M str :=
  let lite := t_lite T in
  text <- (if lite then ret text else no_textile T text) ;;
  text <- (if lite then ret text else code T text) ;;
  text <- get_html_comments T text ;;
  text <- get_refs T text ;;
  text <- glyph_quoted_quote T text ;;
  text <- links W T fuel text ;;
  text <- (if t_noimage T then ret text else image W T text) ;;
  text <- (if lite then ret text else table text) ;;
  text <- (if lite then ret text else redcloth_list text) ;;
  text <- (if lite then ret text else textile_lists text) ;;
  text <- span T text ;;
  text <- footnote_ref text ;;
  text <- note_ref text ;;
  text <- glyphs T text ;;
  ret (trim_end_matches 10 text).
End WithGraf.

(** [graf], src/parser.rs:1515-1533, recursive through the above *)
Fixpoint graf_n (n : nat) (text : str) : M str :=
  match n with
  | O => diverge
  | S n' => graf_body (graf_n n') text
  end.
Definition graf : str -> M str := graf_n fuel.

(** [parse], src/parser.rs:1918-1986 *)
Definition final_br : str :=
  match t_html T with XHTML => u "<br />" ++ nl | HTML5 => u "<br>" ++ nl end.
Definition finish (text : str) : str :=
  let text := match t_sanitize T with Some clean => clean text | None => text end in
  trim_end_matches 10 (replace_all (rx_re BR_PATTERN) (fun _ => final_br) text).
Definition prepare (text : str) : str :=
  replace_str (normalize_newlines (if t_restricted T then encode_html text false false else text))
              (t_uid T) [].
Definition parse_m (text : str) : M str :=
  if is_empty (trim text) then ret text else
  let text := prepare text in
  text <- (if t_block_tags T then
             text <- block graf text ;;
             place_note_lists text
           else
             text <- glyph_quoted_quote T (text ++ nl ++ nl) ;;
             text <- span T text ;;
             glyphs T text) ;;
  text <- retrieve fuel text ;;
  let text := replace_str text (t_uid T ++ u ":glyph:") [] in
  text <- retrieve_tags T text ;;
  text <- retrieve_urls W T text ;;
  ret (finish text).

End WithSettings.

(** A call of [parse] on a [Textile] value whose pattern cache is [c]. *)
Definition parse (W : world) (T : textile) (fuel : nat) (c : cache) (text : str) : res str :=
  parse_m W T fuel text (new_state c).

(** ** Settings *)

(** [set_uid], src/parser.rs:2120-2131 *)
Definition uid_of (base_id : str) : str := u "textileRef:" ++ base_id ++ u ":".
Definition dyn_template (uid : str) : str :=
  u "$1<span class=""caps"">" ++ uid ++ u ":glyph:$2</span>$3".
Definition set_uid (base_id : str) (T : textile) : textile :=
  mk_textile (uid_of base_id) (base_id ++ u "-") (t_restricted T) (t_raw_block T) (t_align_class T)
    (t_block_tags T) (t_lite T) (t_noimage T) (t_get_sizes T) (t_max_span_depth T) (t_html T) (t_rel T)
    (dyn_template (uid_of base_id)) (t_sanitize T).

(** [Default], src/parser.rs:1886-1912; the time based id is a parameter. *)
Definition default_textile (time_id : str) : textile :=
  set_uid time_id (mk_textile [] [] false false None true false false false 5 HTML5 None [] None).

(** The other setters, src/parser.rs:1990-2118 *)
Definition set_getting_image_size (v : bool) (T : textile) := mk_textile (t_uid T) (t_link_prefix T) (t_restricted T) (t_raw_block T) (t_align_class T) (t_block_tags T) (t_lite T) (t_noimage T) v (t_max_span_depth T) (t_html T) (t_rel T) (t_dyn T) (t_sanitize T).
Definition set_block_tags (v : bool) (T : textile) := mk_textile (t_uid T) (t_link_prefix T) (t_restricted T) (t_raw_block T) (t_align_class T) v (t_lite T) (t_noimage T) (t_get_sizes T) (t_max_span_depth T) (t_html T) (t_rel T) (t_dyn T) (t_sanitize T).
Definition set_html_kind (v : html_kind) (T : textile) := mk_textile (t_uid T) (t_link_prefix T) (t_restricted T) (t_raw_block T) (t_align_class T) (t_block_tags T) (t_lite T) (t_noimage T) (t_get_sizes T) (t_max_span_depth T) v (t_rel T) (t_dyn T) (t_sanitize T).
Definition set_restricted (v : bool) (T : textile) := mk_textile (t_uid T) (t_link_prefix T) v (t_raw_block T) (t_align_class T) (t_block_tags T) (t_lite T) (t_noimage T) (t_get_sizes T) (t_max_span_depth T) (t_html T) (t_rel T) (t_dyn T) (t_sanitize T).
Definition set_lite (v : bool) (T : textile) := mk_textile (t_uid T) (t_link_prefix T) (t_restricted T) (t_raw_block T) (t_align_class T) (t_block_tags T) v (t_noimage T) (t_get_sizes T) (t_max_span_depth T) (t_html T) (t_rel T) (t_dyn T) (t_sanitize T).
Definition set_images (v : bool) (T : textile) := mk_textile (t_uid T) (t_link_prefix T) (t_restricted T) (t_raw_block T) (t_align_class T) (t_block_tags T) (t_lite T) (negb v) (t_get_sizes T) (t_max_span_depth T) (t_html T) (t_rel T) (t_dyn T) (t_sanitize T).
Definition set_rel (v : option str) (T : textile) := mk_textile (t_uid T) (t_link_prefix T) (t_restricted T) (t_raw_block T) (t_align_class T) (t_block_tags T) (t_lite T) (t_noimage T) (t_get_sizes T) (t_max_span_depth T) (t_html T) v (t_dyn T) (t_sanitize T).
(** [set_align_class], src/parser.rs:2058-2060: takes the value and returns nothing. *)
Definition set_align_class (v : bool) (T : textile) : unit := tt.
Definition set_raw_blocks (v : bool) (T : textile) := mk_textile (t_uid T) (t_link_prefix T) (t_restricted T) v (t_align_class T) (t_block_tags T) (t_lite T) (t_noimage T) (t_get_sizes T) (t_max_span_depth T) (t_html T) (t_rel T) (t_dyn T) (t_sanitize T).
(** [set_sanitize], [adjust_sanitizer]: [clean] is the cleaning function of the
    configured ammonia builder. *)
Definition set_sanitize (enable : bool) (default_clean : str -> str) (T : textile) := mk_textile (t_uid T) (t_link_prefix T) (t_restricted T) (t_raw_block T) (t_align_class T) (t_block_tags T) (t_lite T) (t_noimage T) (t_get_sizes T) (t_max_span_depth T) (t_html T) (t_rel T) (t_dyn T) (if enable then Some default_clean else None).
Definition adjust_sanitizer (clean : str -> str) (T : textile) := mk_textile (t_uid T) (t_link_prefix T) (t_restricted T) (t_raw_block T) (t_align_class T) (t_block_tags T) (t_lite T) (t_noimage T) (t_get_sizes T) (t_max_span_depth T) (t_html T) (t_rel T) (t_dyn T) (Some clean).
