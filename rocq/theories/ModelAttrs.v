(** src/block.rs:13-277: attribute vectors and attribute specifications *)
From Verif Require Import Str Unicode Regex RegexParse RegexSnips ModelBase ModelHtml.

(** [BlockHtmlAttributes], src/block.rs:14: a vector kept sorted by name.  The
    binary search of [insert] is modelled as the ordered insertion it performs on
    a sorted vector. *)
Definition html_attrs := list (str * str).

(** [insert], src/block.rs:17-26 *)
Definition attr_insert (key value : str) (l : html_attrs) : html_attrs := bt_insert key value l.

(** [insert_css_class], src/block.rs:28-53 (result without the returned flag) *)
Definition css_class_ok (name : str) : bool := is_match (rx_re CSS_CLASS_NAME_RE) (trim name).
Definition insert_css_class (name : str) (l : html_attrs) : html_attrs :=
  if css_class_ok name then
    match assoc (u "class") l with
    | Some content => attr_insert (u "class") (content ++ u " " ++ trim name) l
    | None => attr_insert (u "class") (trim name) l
    end
  else l.

(** [AddAssign], src/block.rs:56-62 *)
Definition attr_add (key : str) (value : option str) (l : html_attrs) : html_attrs :=
  match value with Some v => attr_insert key v l | None => l end.

(** [ToString], src/block.rs:74-85 *)
Definition attrs_to_string (l : html_attrs) : str := flat_map attr_str l.

(** [BlockAttributes], src/block.rs:88-98 *)
Record block_attrs := mk_ba {
  ba_colspan : option str;
  ba_style : option str;
  ba_class : option str;
  ba_id : option str;
  ba_rowspan : option str;
  ba_lang : option str;
  ba_span : option str;
  ba_width : option str
}.
Definition ba_default : block_attrs := mk_ba None None None None None None None None.
Definition ba_set_class v a := mk_ba (ba_colspan a) (ba_style a) v (ba_id a) (ba_rowspan a) (ba_lang a) (ba_span a) (ba_width a).
Definition ba_set_id v a := mk_ba (ba_colspan a) (ba_style a) (ba_class a) v (ba_rowspan a) (ba_lang a) (ba_span a) (ba_width a).
Definition ba_set_lang v a := mk_ba (ba_colspan a) (ba_style a) (ba_class a) (ba_id a) (ba_rowspan a) v (ba_span a) (ba_width a).

(** The element kinds the callers distinguish. *)
Inductive element := ElNone | ElTd | ElTr | ElCol | ElTable.
Definition el_is_td e := match e with ElTd => true | _ => false end.
Definition el_is_td_tr e := match e with ElTd | ElTr => true | _ => false end.
Definition el_is_col e := match e with ElCol => true | _ => false end.

Definition first_group (r : rx) (text : str) : option str :=
  match captures (rx_re r) text with
  | Some h => cap_opt 1 h
  | None => None
  end.

(** Class and id, src/block.rs:169-206 *)
Definition class_and_id (mix : str) : option str * option str :=
  match split_once 35 mix with
  | None => (if is_match (rx_re CSS_CLASSES_RE) mix then Some mix else None, None)
  | Some (lft, rgt) =>
      (if is_empty lft then None
       else if is_match (rx_re CSS_CLASSES_RE) lft then Some lft else None,
       if is_match (rx_re CSS_ID_RE) rgt then Some rgt else None)
  end.

(** [matched.replace(&m[0], "")] *)
Definition erase (matched : str) (h : hit) : str := replace_str matched (h_text h) [].

(** Vertical alignment, src/block.rs:138-148 *)
Definition valign_style (el : element) (matched : str) : M (list str) :=
  if el_is_td_tr el then
    match captures (rx_re ATTR_VALIGN_RE) matched with
    | Some h =>
        if seqb (h_text h) (u "^") then ret [u "vertical-align:top"]
        else if seqb (h_text h) (u "-") then ret [u "vertical-align:middle"]
        else if seqb (h_text h) (u "~") then ret [u "vertical-align:bottom"]
        else panic UnreachableCode
    | None => ret []
    end
  else ret [].

(** Horizontal alignment, src/block.rs:222-232 *)
Definition halign_style (matched : str) : M (list str) :=
  match captures (rx_re ATTR_HALIGN_RE) matched with
  | Some h =>
      v <- capx 1 h ;;
      if seqb v (u "<") then ret [u "text-align:left"]
      else if seqb v (u "=") then ret [u "text-align:center"]
      else if seqb v (u ">") then ret [u "text-align:right"]
      else if seqb v (u "<>") then ret [u "text-align:justify"]
      else panic UnknownAlign
  | None => ret []
  end.

(** [BlockAttributes::parse], src/block.rs:101-256 *)
Definition block_attributes_parse (block_attributes : str) (el : element) (include_id restricted : bool)
  : M block_attrs :=
  if is_empty block_attributes then ret ba_default else
  let matched := block_attributes in
  let colspan := if el_is_td el then first_group COLSPAN_RE matched else None in
  let rowspan := if el_is_td el then first_group ROWSPAN_RE matched else None in
  valign <- valign_style el matched ;;
  let '(style1, matched) :=
    if restricted then ([], matched)
    else match captures (rx_re ATTR_STYLE_RE) matched with
         | Some h => (map trim (split_char 59 (trim_end_matches 59 (cap_or 1 h))), erase matched h)
         | None => ([], matched)
         end in
  let '(lang, matched) :=
    match captures (rx_re ATTR_LANG_RE) matched with
    | Some h => (cap_opt 1 h, erase matched h)
    | None => (None, matched)
    end in
  let '(aclass, block_id, matched) :=
    match captures (rx_re ATTR_ACLASS_RE) matched with
    | Some h =>
        let '(c, i) := if restricted then (None, None) else class_and_id (cap_or 1 h) in
        (c, i, erase matched h)
    | None => (None, None, matched)
    end in
  let '(style2, matched) :=
    match captures (rx_re ATTR_PADDING_LEFT_RE) matched with
    | Some h => ([u "padding-left:" ++ dec (N.of_nat (blen (cap_or 1 h))) ++ u "em"], erase matched h)
    | None => ([], matched)
    end in
  let '(style3, matched) :=
    match captures (rx_re ATTR_PADDING_RIGHT_RE) matched with
    | Some h => ([u "padding-right:" ++ dec (N.of_nat (blen (cap_or 1 h))) ++ u "em"], erase matched h)
    | None => ([], matched)
    end in
  halign <- halign_style matched ;;
  let '(span, width) :=
    if el_is_col el then
      match captures (rx_re ATTR_COL_RE) matched with
      | Some h => (cap_opt 1 h, cap_opt 2 h)
      | None => (None, None)
      end
    else (None, None) in
  let style := valign ++ style1 ++ style2 ++ style3 ++ halign in
  ret (mk_ba colspan
             (match style with [] => None | _ => Some (join (u "; ") style ++ u ";") end)
             aclass
             (if include_id then block_id else None)
             rowspan lang span width).

(** [html_attrs], src/block.rs:258-269 *)
Definition ba_html_attrs (a : block_attrs) : html_attrs :=
  attr_add (u "width") (ba_width a)
  (attr_add (u "style") (ba_style a)
  (attr_add (u "span") (ba_span a)
  (attr_add (u "rowspan") (ba_rowspan a)
  (attr_add (u "lang") (ba_lang a)
  (attr_add (u "id") (ba_id a)
  (attr_add (u "colspan") (ba_colspan a)
  (attr_add (u "class") (ba_class a) []))))))).

(** [From<BlockAttributes> for String], src/block.rs:273-277 *)
Definition ba_to_string (a : block_attrs) : str := attrs_to_string (ba_html_attrs a).
