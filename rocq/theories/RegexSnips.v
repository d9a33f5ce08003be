(** The regular expressions of /repo/src, from their source strings. *)
From Verif Require Import Str Unicode Regex RegexParse.

Local Notation "a +++ b" := (List.app a b) (at level 60, right associativity).

(** ** src/regex_snips.rs *)
Definition CLASS_RE_S : str := u "(?:\([^)\n]+\))".                       (* :18 *)
Definition STYLE_RE_S : str := u "(?:\{[^}\n]+\})".                       (* :19 *)
Definition LANGUAGE_RE_S : str := u "(?:\[[^\]\n]+\])".                   (* :20 *)
Definition SNIP_ACR : str := u "\p{Lu}\p{Nd}".                            (* :21 *)
Definition SNIP_DIGIT : str := u "\p{N}".                                 (* :22 *)
Definition SNIP_SPACE : str := u "\s".                                    (* :23 *)
Definition SNIP_WRD : str := u "(?:\p{L}|\p{M}|\p{N}|\p{Pc})".            (* :24 *)
Definition SNIP_CUR : str := u "\p{Currency_Symbol}".                     (* :25 *)
Definition SNIP_CHAR : str := u "\S".                                     (* :26 *)
Definition VALIGN_RE_S : str := u "[\-^~]".                               (* :27 *)
Definition HALIGN_RE_S : str := u "(?:\<(?!>)|(?<!<)\>|\<\>|\=|[()]+(?! ))". (* :28 *)
Definition SNIP_ABR : str := u "\p{Lu}".                                  (* :29-30 *)
Definition PNCT_RE_S : str :=
  u "[-!""#$%&()*+,/:;<=>?@\'\[\\\]\.^_`{|}~]".                           (* :31 *)
Definition BLOCK_CONTENT : str :=                                         (* :38-41 *)
  u "address|article|aside|blockquote|details|div|dl|fieldset|figure|figcaption"
  +++ u "|footer|form|h1|h2|h3|h4|h5|h6|header|hgroup|main|menu|nav|ol"
  +++ u "|pre|p|section|s|table|template|ul".
Definition CLS_RE_S : str :=                                              (* :45-51 *)
  fmt "(?:{c}(?:{l}(?:{s})?|{s}(?:{l})?)?|{l}(?:{c}(?:{s})?|{s}(?:{c})?)?|{s}(?:{c}(?:{l})?|{l}(?:{c})?)?)?"
      [("c", CLASS_RE_S); ("s", STYLE_RE_S); ("l", LANGUAGE_RE_S)]%string.
Definition ALIGN_RE_S : str :=                                            (* :54 *)
  fmt "(?:{0}|{1})*" [("0", HALIGN_RE_S); ("1", VALIGN_RE_S)]%string.
Definition LONE_AMP_RE : rx := Eval vm_compute in                         (* :56 *)
  fregex (u "(?i)&(?!#[0-9]+;|#x[a-f0-9]+;|[a-z][a-z0-9]*;)").
Definition DIVIDER_RE : rx := Eval vm_compute in                          (* :57-58 *)
  fregex (u "(?si)^(?:</?(br|hr|img)(?:\s[^<>]*?|/?)>(?:</\1\s*?>)?)+$").

(** ** src/htmltools.rs *)
Definition ENTITY_RE : rx := Eval vm_compute in                           (* :49-50 *)
  fregex (u "(&(?:amp|lt|gt|quot|#39|#13|#10|#9);)").
Definition CHARREF : rx := Eval vm_compute in                             (* :262-265 *)
  fregex (u "&(#[0-9]+;?|#[xX][0-9a-fA-F]+;?|[^\t\n\f <&#;]{1,32};?)").
Definition PHRASING_CONTENT : str :=                                      (* :273-279 *)
  u "abbr|acronym|area|audio|a|bdo|br|button|b|canvas|cite|code|command|"
  +++ u "data|datalist|del|dfn|em|embed|iframe|img|input|ins|i|kbd|keygen|"
  +++ u "label|link|map|mark|math|meta|meter|noscript|object|output|progress|"
  +++ u "q|ruby|samp|script|select|small|span|strong|sub|sup|svg|textarea|"
  +++ u "time|var|video|wbr".
Definition UNWRAPPABLE_RE : rx := Eval vm_compute in                      (* :281-282 *)
  fregex (fmt "(?si)</?(?:{0})(?:\s[^<>]*?|/?)>" [("0", BLOCK_CONTENT)]%string).
Definition WRAPPED_RE : rx := Eval vm_compute in                          (* :283-284 *)
  fregex (u "(?si)^</?([^\s<>/]+)[^<>]*?>(?:.*</\1\s*?>)?$").
Definition PHRASING_RE : rx := Eval vm_compute in                         (* :285-286 *)
  fregex (fmt "(?i)^(?:{0})$" [("0", PHRASING_CONTENT)]%string).

(** ** src/block.rs *)
Definition CSS_CLASS_NAME_RE : rx := Eval vm_compute in                   (* :32-33 *)
  fregex (u "(?i)^-?[_a-z][_a-z0-9-]*$").
Definition COLSPAN_RE : rx := Eval vm_compute in fregex (u "\\(\d+)").    (* :103 *)
Definition ROWSPAN_RE : rx := Eval vm_compute in fregex (u "/(\d+)").     (* :104 *)
Definition ATTR_VALIGN_RE : rx := Eval vm_compute in                      (* :105 *)
  fregex (fmt "^{0}" [("0", VALIGN_RE_S)]%string).
Definition ATTR_STYLE_RE : rx := Eval vm_compute in fregex (u "\{([^}]*)\}").    (* :106 *)
Definition ATTR_LANG_RE : rx := Eval vm_compute in fregex (u "\[([^\]]+)\]").    (* :107 *)
Definition ATTR_ACLASS_RE : rx := Eval vm_compute in fregex (u "\(([^()]+)\)").  (* :108 *)
Definition CSS_ID_RE : rx := Eval vm_compute in fregex (u "^([-a-zA-Z0-9_\.\:]*)$"). (* :109 *)
Definition ATTR_PADDING_LEFT_RE : rx := Eval vm_compute in fregex (u "([(]+)").  (* :110 *)
Definition ATTR_PADDING_RIGHT_RE : rx := Eval vm_compute in fregex (u "([)]+)"). (* :111 *)
Definition ATTR_COL_RE : rx := Eval vm_compute in fregex (u "^(?:\\(\d+)\.?)?\s*(\d+)?"). (* :112 *)
Definition CSS_CLASSES_RE : rx := Eval vm_compute in                      (* :113 *)
  fregex (u "^([-a-zA-Z 0-9_\.\/\[\]]*)$").
Definition ATTR_HALIGN_RE : rx := Eval vm_compute in                      (* :219-220 *)
  fregex (fmt "({0})" [("0", HALIGN_RE_S)]%string).
Definition FNID_RE : rx := Eval vm_compute in                             (* :300 *)
  fregex (fmt "fn(?P<fnid>{0}+)" [("0", SNIP_DIGIT)]%string).
Definition CODE_LANG_RE : rx := Eval vm_compute in fregex (u "^[a-zA-Z0-9_-]+$"). (* :301 *)
Definition NOTEDEF_RE : rx := Eval vm_compute in                          (* :316-327 *)
  fregex (fmt "^note#(?P<label>[^%<*!@#^(\[{{ {space}.]+)(?P<link>[*!^]?)(?P<att>{cls})\.?[{space}]+(?P<content>.*)$"
              [("space", SNIP_SPACE); ("cls", CLS_RE_S)]%string).

(** ** src/table.rs *)
Definition COLSPAN_RE_S : str := u "(?:\\\d+)".                           (* :12 *)
Definition ROWSPAN_RE_S : str := u "(?:\/\d+)".                           (* :13 *)
Definition TABLE_SPAN_RE_S : str :=                                       (* :15-16 *)
  fmt "(?:{0}|{1})*" [("0", COLSPAN_RE_S); ("1", ROWSPAN_RE_S)]%string.
Definition sac : list (string * str) :=
  [("s", TABLE_SPAN_RE_S); ("a", ALIGN_RE_S); ("c", CLS_RE_S)]%string.
Definition COMPONENTS_RE : rx := Eval vm_compute in                       (* :72-73 *)
  fregex (fmt "(?m)\|{0}*?$" [("0", SNIP_SPACE)]%string).
Definition CAPTION_RE : rx := Eval vm_compute in                          (* :74-77 *)
  fregex (fmt "(?s)^\|\=(?P<capts>{s}{a}{c})\. (?P<cap>[^\n]*)(?P<row>.*)" sac).
Definition GRPMATCH_RE : rx := Eval vm_compute in                         (* :79-84 *)
  fregex (fmt "(?ms)(:?^\|(?P<part>{v})(?P<rgrpatts>{s}{a}{c})\.{space}*$\n)?^(?P<row>.*)"
              (("v", VALIGN_RE_S) :: ("space", SNIP_SPACE) :: sac)%string).
Definition RMTCH_RE : rx := Eval vm_compute in                            (* :87-89 *)
  fregex (fmt "^(?P<ratts>{0}{1}\. )(?P<row>.*)" [("0", ALIGN_RE_S); ("1", CLS_RE_S)]%string).
Definition CMTCH_RE : rx := Eval vm_compute in                            (* :91-93 *)
  fregex (fmt "(?s)^(?P<catts>_?{0}{1}{2}\. )(?P<cell>.*)"
              [("0", TABLE_SPAN_RE_S); ("1", ALIGN_RE_S); ("2", CLS_RE_S)]%string).
Definition CELL_A_PATTERN_RE : rx := Eval vm_compute in                   (* :94-95 *)
  fregex (fmt "(?s)(?P<space>{0}*)(?P<cell>.*)" [("0", SNIP_SPACE)]%string).
Definition COLGROUP_RE : rx := Eval vm_compute in                         (* :96-98 *)
  fregex (fmt "(?m)^\|:(?P<cols>{s}{a}{c}\. .*)" sac).
Definition HEADING_RE : rx := Eval vm_compute in                          (* :99-100 *)
  fregex (fmt "^_(?={0}|{1})" [("0", SNIP_SPACE); ("1", PNCT_RE_S)]%string).

(** ** src/parser.rs *)
Definition SYMS_RE_S : str := u "¤§µ¶†‡•∗∴◊♠♣♥♦".                        (* :22 *)
Definition BLOCK_TAGS_RE_S : str := u "bq|bc|notextile|pre|h[1-6]|fn\d+|p|###". (* :24 *)
Definition BLOCK_TAGS_LITE_RE_S : str := u "bq|bc|p".                     (* :25 *)
Definition RESTRICTED_URL_SCHEMES : list str :=                           (* :26 *)
  map u ["http"; "https"; "ftp"; "mailto"]%string.
Definition UNRESTRICTED_URL_SCHEMES : list str :=                         (* :27 *)
  map u ["http"; "https"; "ftp"; "mailto"; "file"; "tel"; "callto"; "sftp"; "data"]%string.

Definition SPAN_PNCT : str := u ".,""'?!;:‹›«»„“”‚‘’".                    (* :30 *)
Definition span_re (tag : string) : rx :=                                 (* :29-44 *)
  fregex (fmt "(?P<pre>^|(?<=[\s>{pnct}\(])|[{{\[])(?P<tag>{tag})(?!{tag})(?P<atts>{cls})(?!{tag})(?::(?P<cite>\S+[^{tag}]{space}))?(?P<content>[^{space}{tag}]+|\S.*?[^\s{tag}\n])(?P<end>[{pnct}]*){tag}(?P<tail>$|[\[\]}}<]|(?=[{pnct}]{{1,2}}[^0-9]|\s|\)))"
              [("tag", u tag); ("cls", CLS_RE_S); ("pnct", SPAN_PNCT); ("space", SNIP_SPACE)]%string).

(** The pattern of [do_special], :46-56 *)
Definition special_re (start stop : string) : rx :=
  fregex (fmt "(?ms)(^|\s|[\[({{>|]){0}(.*?){1}($|[\])}}])?"
              [("0", re_escape (u start)); ("1", re_escape (u stop))]%string).
Definition SPECIAL_NOTEXTILE : rx := Eval vm_compute in special_re "<notextile>" "</notextile>". (* :448 *)
Definition SPECIAL_EQ : rx := Eval vm_compute in special_re "==" "==".    (* :449 *)
Definition SPECIAL_CODE : rx := Eval vm_compute in special_re "<code>" "</code>". (* :471 *)
Definition SPECIAL_AT : rx := Eval vm_compute in special_re "@" "@".      (* :472 *)
Definition SPECIAL_PRE : rx := Eval vm_compute in special_re "<pre>" "</pre>". (* :473 *)
Definition SPECIAL_COMMENT : rx := Eval vm_compute in special_re "<!--" "-->". (* :478 *)

(** [make_glyph_replacers], :82-147 *)
Definition GLYPH_CUR : str := fmt "(?:[{0}]{1}*)?" [("0", SNIP_CUR); ("1", SNIP_SPACE)]%string.
Definition GL_DIM : rx := Eval vm_compute in
  fregex (fmt "(?i)(?<=\b|x)([0-9]+[\])]?['""]? ?)[x]( ?[\[(]?)(?=[+-]?{0}[0-9]*\.?[0-9]+)" [("0", GLYPH_CUR)]%string).
Definition GL_APOS : rx := Eval vm_compute in
  fregex (fmt "({0}|\))'({0})" [("0", SNIP_WRD)]%string).
Definition GL_BACKIN : rx := Eval vm_compute in
  fregex (fmt "({0})'(\d+{1}?)\b(?![.]?[{1}]*?')" [("0", SNIP_SPACE); ("1", SNIP_WRD)]%string).
Definition GL_SOPENB : rx := Eval vm_compute in fregex (u "([(\[{])'(?=\S)").
Definition GL_SCLOSE : rx := Eval vm_compute in
  fregex (fmt "(\S)'(?={0}|{1}|<|$)" [("0", SNIP_SPACE); ("1", PNCT_RE_S)]%string).
Definition GL_SOPEN : rx := Eval vm_compute in fregex (u "'").
Definition GL_DOPENB : rx := Eval vm_compute in fregex (u "([(\[{])""(?=\S)").
Definition GL_DCLOSE : rx := Eval vm_compute in
  fregex (fmt "(\S)""(?={0}|{1}|<|$)" [("0", SNIP_SPACE); ("1", PNCT_RE_S)]%string).
Definition GL_DOPEN : rx := Eval vm_compute in fregex (u """").
Definition GL_ELLIPSIS : rx := Eval vm_compute in fregex (u "([^.]?)\.{3}").
Definition GL_AMP : rx := Eval vm_compute in fregex (u "(\s?)&(\s)").
Definition GL_EMDASH : rx := Eval vm_compute in fregex (u "(\s?)--(\s?)").
Definition GL_ENDASH : rx := Eval vm_compute in fregex (u " - ").
Definition GL_TM : rx := Eval vm_compute in
  fregex (fmt "(?i)(\b ?|{0}|^)[(\[]TM[\])]" [("0", SNIP_SPACE)]%string).
Definition GL_REG : rx := Eval vm_compute in
  fregex (fmt "(?i)(\b ?|{0}|^)[(\[]R[\])]" [("0", SNIP_SPACE)]%string).
Definition GL_COPY : rx := Eval vm_compute in
  fregex (fmt "(?i)(\b ?|{0}|^)[(\[]C[\])]" [("0", SNIP_SPACE)]%string).
Definition GL_HALF : rx := Eval vm_compute in fregex (u "[(\[]1\/2[\])]").
Definition GL_QUARTER : rx := Eval vm_compute in fregex (u "[(\[]1\/4[\])]").
Definition GL_3QUARTER : rx := Eval vm_compute in fregex (u "[(\[]3\/4[\])]").
Definition GL_DEGREE : rx := Eval vm_compute in fregex (u "[(\[]o[\])]").
Definition GL_PLUSMINUS : rx := Eval vm_compute in fregex (u "[(\[]\+\/-[\])]").
Definition GL_ACRONYM : rx := Eval vm_compute in
  fregex (fmt "\b([{0}][{1}]{{2,}})\b(?:[(]([^)]*)[)])" [("0", SNIP_ABR); ("1", SNIP_ACR)]%string).

Definition TEXT_NOTELIST_RE : rx := Eval vm_compute in                    (* :324-327 *)
  fregex (fmt "<p>notelist({0})(?:\:([\w|{1}]))?([\^!]?)(\+?)\.?[\s]*</p>"
              [("0", CLS_RE_S); ("1", SYMS_RE_S)]%string).

(** [make_url_ref_re], :505-510 *)
Definition url_ref_re (schemes : list str) : rx :=
  fregex (fmt "(?:(?<=^)|(?<=\s))\[(.+)\]((?:{0}:\/\/|\/)\S+)(?=\s|$)" [("0", join (u "|") schemes)]%string).
Definition RESTRICTED_URLREF_RE : rx := Eval vm_compute in url_ref_re RESTRICTED_URL_SCHEMES.
Definition UNRESTRICTED_URLREF_RE : rx := Eval vm_compute in url_ref_re UNRESTRICTED_URL_SCHEMES.

Definition IMAGE_RE : rx := Eval vm_compute in                            (* :533-548 *)
  fregex (fmt "(?:[\[{{])?\!([<>=]|&lt;|&gt;)?({0})(?:\.\s)?([^\s(!]+)\s?(?:\(([^\)]+)\))?\!(?::(\S+)(?<![\]).,]))?(?:[\]}}]|(?=[.,\s)|]|$))"
              [("0", CLS_RE_S)]%string).

Definition SLICE_RE : rx := Eval vm_compute in                            (* :634-635 *)
  fregex (fmt """:(?={0})" [("0", SNIP_CHAR)]%string).
Definition START_NOSPACE_RE : rx := Eval vm_compute in fregex (u "^\S|=$"). (* :647 *)
Definition END_NOSPACE_RE : rx := Eval vm_compute in fregex (u "\S$").    (* :648 *)

Definition TABLE_RE : rx := Eval vm_compute in                            (* :746-754 *)
  fregex (fmt "(?ms)^(?:table(?P<tatts>_?{s}{a}{c})\.(?P<summary>.*?)\n)?^(?P<rows>{a}{c}\.? ?\|.*\|)[\s]*\n\n" sac).

Definition RC_PATTERN : rx := Eval vm_compute in                          (* :771-772 *)
  fregex (fmt "(?ms)^([-]+{0}[ .].*:=.*)$(?![^-])" [("0", CLS_RE_S)]%string).
Definition RC_SPLITTER : rx := Eval vm_compute in fregex (u "(?m)\n(?=[-])"). (* :773-774 *)
Definition RC_ATTR_CONTENT_RE : rx := Eval vm_compute in                  (* :777-778 *)
  fregex (fmt "(?ms)^[-]+({0})\.? (.*)$" [("0", CLS_RE_S)]%string).
Definition RC_XM_RE : rx := Eval vm_compute in                            (* :780-782 *)
  fregex (fmt "(?s)^(.*?){0}*:=(.*?){0}*(=:|:=)?{0}*$" [("0", SNIP_SPACE)]%string).

Definition LIST_RE : rx := Eval vm_compute in                             (* :847-851 *)
  fregex (fmt "(?ms)^((?:[*;:]+|[*;:#]*#(?:_|\d+)?){0}[ .].*)$(?![^#*;:])" [("0", CLS_RE_S)]%string).
Definition LIST_SPLITTER : rx := Eval vm_compute in fregex (u "(?m)\n(?=[*#;:])"). (* :852 *)
Definition LIST_LINE_PARSER : rx := Eval vm_compute in                    (* :853-858 *)
  fregex (fmt "(?s)^(?P<tl>[#*;:]+)(?P<st>_|\d+)?(?P<atts>{0})[ .](?P<content>.*)$" [("0", CLS_RE_S)]%string).
Definition LIST_START_RE : rx := Eval vm_compute in fregex (u "^([#*]+)"). (* :870 *)

(** The pattern of [do_tag_br], :1064-1066 *)
Definition tag_br_re (tag : str) : option rx :=
  parse_rx (fmt "(?s)<{0}([^>]*?)>(.*)</{0}>" [("0", re_escape tag)]%string).

Definition PBR_TAG_RE : rx := Eval vm_compute in                          (* :1077 *)
  fregex (u "(?s)<(p|h[1-6])([^>]*?)>(.*)(</\1>)").
Definition PBR_BR_RE : rx := Eval vm_compute in                           (* :1078-1079 *)
  fregex (fmt "(?i)<br[ ]*/?>{0}*\n(?![{0}|])" [("0", SNIP_SPACE)]%string).
Definition PBR_NEWLINE_RE : rx := Eval vm_compute in fregex (u "\n(?![\s|])"). (* :1080 *)

Definition FOOTNOTE_RE : rx := Eval vm_compute in                         (* :1097-1101 *)
  fregex (fmt "(?<=\S)\[(?P<id>{0}+)(?P<nolink>!?)\](?P<space>{1}?)"
              [("0", SNIP_DIGIT); ("1", SNIP_SPACE)]%string).
Definition NOTEREF_RE : rx := Eval vm_compute in                          (* :1135-1144 *)
  fregex (fmt "\[({0})\#([^\]!]+)([!]?)\]" [("0", CLS_RE_S)]%string).
Definition GLYPH_SPLITTER_RE : rx := Eval vm_compute in fregex (u "(<[\w\/!?].*?>)"). (* :1223 *)

Definition LINK_STOPCHARS : str := u "\s|^'""*".                          (* :1262 *)
Definition LINK_BLOCK_RE : rx := Eval vm_compute in                       (* :1295-1308 *)
  fregex (fmt "^(?P<atts>{0}){1}*(?P<text>(!.+!)|.+?)(?:\((?P<title>[^)]+?)\))?$"
              [("0", CLS_RE_S); ("1", SNIP_SPACE)]%string).
Definition LINK_URL_TIGHT_RE : rx := Eval vm_compute in fregex (u "(?P<url>^.*\])(?P<tight>\[.*?)$"). (* :1334 *)
Definition LINK_URL_END_RE : rx := Eval vm_compute in fregex (u "(?P<url>^.*\])(?!=)(?P<end>.*?)$"). (* :1349 *)
Definition LINK_CLOSE_TAG_RE : rx := Eval vm_compute in fregex (u "^(?P<url_chars>.*)(?P<tag></[a-z]+)$"). (* :1377 *)

(** [TAG_PATTERNS] of [span], :1537-1541 *)
Definition TAG_PATTERNS : list rx := Eval vm_compute in
  map span_re ["\*\*"; "\*"; "\?\?"; "\-"; "__"; "_"; "%"; "\+"; "~"; "\^"]%string.

(** [textile_block_re], :1630-1641 *)
Definition textile_block_re (tags : str) : rx :=
  fregex (fmt "(?s)^(?P<tag>{0})(?P<atts>{1}{2}{1})\.(?P<ext>\.?)(?::(?P<cite>\S+))? (?P<graf>.*)$"
              [("0", tags); ("1", ALIGN_RE_S); ("2", CLS_RE_S)]%string).
Definition TEXTILE_TAG_RE : rx := Eval vm_compute in textile_block_re BLOCK_TAGS_RE_S.
Definition TEXTILE_LIGHT_TAG_RE : rx := Eval vm_compute in textile_block_re BLOCK_TAGS_LITE_RE_S.
Definition MULTI_ENDLINE_RE : rx := Eval vm_compute in fregex (u "(\n{2,})"). (* :1642 *)
Definition BR_TAG_RE : rx := Eval vm_compute in fregex (u "(?i)<br\s*?/?>"). (* :1643 *)

Definition QUOTE_STARTS : str := u """'({[«»‹›„‚‘”".                      (* :1748 *)
Definition QUOTED_QUOTE_RE : rx := Eval vm_compute in                     (* :1750-1752 *)
  fregex (fmt " (?P<pre>[{0}])(?P<quoted>""?|""[^""]+)(?P<post>.) " [("0", re_escape QUOTE_STARTS)]%string).

Definition NORM_CR_RE : rx := Eval vm_compute in fregex (u "\r\n?").      (* :1857 *)
Definition NORM_BLANK_RE : rx := Eval vm_compute in fregex (u "(?m)^[ \t]*\n"). (* :1858 *)

Definition DYN_3PLUS_RE : rx := Eval vm_compute in                        (* :1873-1884 *)
  fregex (fmt "({space}|^|[>(;-])([{abr}]{{3,}})([{nab}]*)(?={space}|{pnct}|<|$)(?=[^"">]*?(<|$))"
              [("space", SNIP_SPACE); ("abr", SNIP_ABR); ("nab", u "\p{Ll}"); ("pnct", PNCT_RE_S)]%string).
Definition BR_PATTERN : rx := Eval vm_compute in fregex (u "<br( /)?>(?!\n)"). (* :1970 *)

(** Patterns that contain the uid: [retrieve_urls] :417, [replace_links]
    :1270-1284, [retrieve_tags] :1612 and :1623.  For a uid without special
    characters (the normal case) the regex is the literal uid followed by the
    rest, built directly; otherwise the formatted pattern is compiled. *)
Definition uid_plain (uid : str) : bool := forallb (fun c => negb (is_special c)) uid.

Definition URL_TOKEN_REST : rx := Eval vm_compute in fregex (u "(?P<token>[0-9]+):url").
Definition OSPAN_TOKEN_REST : rx := Eval vm_compute in fregex (u "(?P<token>[0-9]+):ospan ").
Definition CSPAN_TOKEN_REST : rx := Eval vm_compute in fregex (u "(?P<token>[0-9]+):cspan").

(** [a] followed by the literal [s]: what the parser builds. *)
Fixpoint lit_then (s : str) (r : re) : re :=
  match s with
  | [] => r
  | c :: s' => RSeq (RCls (cls_of [one c])) (lit_then s' r)
  end.

Definition url_token_re (uid : str) : option rx :=
  if uid_plain uid then Some (mk_rx (lit_then uid (rx_re URL_TOKEN_REST)) 2 (rx_names URL_TOKEN_REST))
  else parse_rx (uid +++ u "(?P<token>[0-9]+):url").
Definition ospan_token_re (uid : str) : option rx :=
  if uid_plain uid then Some (mk_rx (lit_then uid (rx_re OSPAN_TOKEN_REST)) 2 (rx_names OSPAN_TOKEN_REST))
  else parse_rx (uid +++ u "(?P<token>[0-9]+):ospan ").
Definition cspan_token_re (uid : str) : option rx :=
  if uid_plain uid then Some (mk_rx (lit_then ([32] +++ uid) (rx_re CSPAN_TOKEN_REST)) 2 (rx_names CSPAN_TOKEN_REST))
  else parse_rx ([32] +++ uid +++ u "(?P<token>[0-9]+):cspan").

Definition LINK_REST_S : str :=
  fmt """(?P<inner>(?:.|\n)*?)"":(?P<urlx>[^{1}]*)" [("1", LINK_STOPCHARS)]%string.
Definition needle (uid : str) : str := uid +++ u "linkStartMarker:".      (* :1264 *)
(* The template group [pre] is group 1, so the rest is parsed with its group numbers. *)
Definition LINK_PRE_AND_REST : rx := Eval vm_compute in fregex (u "(?P<pre>\[)?" +++ LINK_REST_S).
Definition link_re (uid : str) : option rx :=
  if uid_plain uid then
    match rx_re LINK_PRE_AND_REST with
    | RSeq pre rest => Some (mk_rx (RSeq pre (lit_then (needle uid) rest)) 4 (rx_names LINK_PRE_AND_REST))
    | _ => None
    end
  else parse_rx (u "(?P<pre>\[)?" +++ needle uid +++ LINK_REST_S).

(** Every constant pattern compiled, and no loop body is nullable. *)
Definition all_rx : list rx :=
  [ LONE_AMP_RE; DIVIDER_RE; ENTITY_RE; CHARREF; UNWRAPPABLE_RE; WRAPPED_RE; PHRASING_RE;
    CSS_CLASS_NAME_RE; COLSPAN_RE; ROWSPAN_RE; ATTR_VALIGN_RE; ATTR_STYLE_RE; ATTR_LANG_RE;
    ATTR_ACLASS_RE; CSS_ID_RE; ATTR_PADDING_LEFT_RE; ATTR_PADDING_RIGHT_RE; ATTR_COL_RE;
    CSS_CLASSES_RE; ATTR_HALIGN_RE; FNID_RE; CODE_LANG_RE; NOTEDEF_RE;
    COMPONENTS_RE; CAPTION_RE; GRPMATCH_RE; RMTCH_RE; CMTCH_RE; CELL_A_PATTERN_RE; COLGROUP_RE; HEADING_RE;
    SPECIAL_NOTEXTILE; SPECIAL_EQ; SPECIAL_CODE; SPECIAL_AT; SPECIAL_PRE; SPECIAL_COMMENT;
    GL_DIM; GL_APOS; GL_BACKIN; GL_SOPENB; GL_SCLOSE; GL_SOPEN; GL_DOPENB; GL_DCLOSE; GL_DOPEN;
    GL_ELLIPSIS; GL_AMP; GL_EMDASH; GL_ENDASH; GL_TM; GL_REG; GL_COPY; GL_HALF; GL_QUARTER;
    GL_3QUARTER; GL_DEGREE; GL_PLUSMINUS; GL_ACRONYM;
    TEXT_NOTELIST_RE; RESTRICTED_URLREF_RE; UNRESTRICTED_URLREF_RE; IMAGE_RE; SLICE_RE;
    START_NOSPACE_RE; END_NOSPACE_RE; TABLE_RE; RC_PATTERN; RC_SPLITTER; RC_ATTR_CONTENT_RE; RC_XM_RE;
    LIST_RE; LIST_SPLITTER; LIST_LINE_PARSER; LIST_START_RE; PBR_TAG_RE; PBR_BR_RE; PBR_NEWLINE_RE;
    FOOTNOTE_RE; NOTEREF_RE; GLYPH_SPLITTER_RE; LINK_BLOCK_RE; LINK_URL_TIGHT_RE; LINK_URL_END_RE;
    LINK_CLOSE_TAG_RE; TEXTILE_TAG_RE; TEXTILE_LIGHT_TAG_RE; MULTI_ENDLINE_RE; BR_TAG_RE;
    QUOTED_QUOTE_RE; NORM_CR_RE; NORM_BLANK_RE; DYN_3PLUS_RE; BR_PATTERN;
    URL_TOKEN_REST; OSPAN_TOKEN_REST; CSPAN_TOKEN_REST; LINK_PRE_AND_REST ] ++ TAG_PATTERNS.

Example all_rx_ok : forallb rx_ok all_rx = true.
Proof. vm_compute. reflexivity. Qed.

(** The direct construction for plain uids is what the parser gives. *)
Example uid_patterns_agree :
  let uid := u "textileRef:9f3a:" in
  (url_token_re uid, ospan_token_re uid, cspan_token_re uid, link_re uid)
  = (parse_rx (uid +++ u "(?P<token>[0-9]+):url"),
     parse_rx (uid +++ u "(?P<token>[0-9]+):ospan "),
     parse_rx ([32] +++ uid +++ u "(?P<token>[0-9]+):cspan"),
     parse_rx (u "(?P<pre>\[)?" +++ needle uid +++ LINK_REST_S)).
Proof. vm_compute. reflexivity. Qed.
