{
 "claims": [
  {
   "property": "C01",
   "status": "partial",
   "theorems": [
    "C01_align_refuted",
    "C01_slice_refuted",
    "C01_overflow_refuted",
    "C01_number_refuted",
    "C01_entity_refuted",
    "C01_uid_refuted",
    "C01_panics_partial"
   ],
   "note": "False of the code: six documents or settings panic (the C01_*_refuted theorems). C01_panics_partial: with uids without pattern metacharacters, after any history of calls, these are the only panic sites."
  },
  {
   "property": "C02",
   "status": "partial",
   "theorems": [
    "C02_inches_refuted",
    "C02_marking_refuted",
    "C02_rewriting_partial"
   ],
   "note": "False of the code: marking of link starts never ends on an ordinary document (C02_inches_refuted, for every number of steps) and on a whole class of texts (C02_marking_refuted). The rewriting of links always ends; span recursion is bounded (C44)."
  },
  {
   "property": "C03",
   "status": "proved",
   "theorems": [
    "C03_blank",
    "C03_otherwise"
   ],
   "note": ""
  },
  {
   "property": "C04",
   "status": "proved",
   "theorems": [
    "C04_no_final_newline"
   ],
   "note": ""
  },
  {
   "property": "C05",
   "status": "proved",
   "theorems": [
    "C05_breaks"
   ],
   "note": ""
  },
  {
   "property": "C06",
   "status": "partial",
   "theorems": [
    "C06_history_refuted",
    "C06_history_partial"
   ],
   "note": "False when set_uid is called between two parses (C06_history_refuted). Holds for every history in which the uid is set before the first parse."
  },
  {
   "property": "C07",
   "status": "proved",
   "theorems": [
    "C07_no_borrow_error"
   ],
   "note": "For every history of setter calls and parses, any uid and any world."
  },
  {
   "property": "C08",
   "status": "proved",
   "theorems": [
    "C08_own_setting",
    "C08_other_settings",
    "C08_last_wins",
    "C08_commute",
    "C08_override"
   ],
   "note": ""
  },
  {
   "property": "C09",
   "status": "partial",
   "theorems": [
    "C09_align_class_refuted",
    "C09_align_class_unset_partial"
   ],
   "note": "False of the code: set_align_class consumes the parser and returns nothing. What holds: the documented behaviour when unset."
  },
  {
   "property": "C10",
   "status": "partial",
   "theorems": [
    "C10_raw_blocks_refuted"
   ],
   "note": "False of the code: the setting is never read, so both values give the same result on every document."
  },
  {
   "property": "C11",
   "status": "proved",
   "theorems": [
    "C11_escaped_text_inert",
    "C11_ampersands_start_entities"
   ],
   "note": ""
  },
  {
   "property": "C12",
   "status": "partial",
   "theorems": [
    "C12_decode_partial",
    "C12_decode_refuted",
    "C12_injective"
   ],
   "note": "False of the code for CR and LF when line spacers are escaped (their entities are exchanged): C12_decode_refuted. Holds for every other text; injectivity holds for all."
  },
  {
   "property": "C13",
   "status": "partial",
   "theorems": [
    "C13_unescape_url_partial",
    "C13_unescape_url_refuted"
   ],
   "note": "False of the code: every restricted URL with an ampersand panics (C13_unescape_url_refuted, for all such URLs). Holds exactly for the URLs without one."
  },
  {
   "property": "C14",
   "status": "proved",
   "theorems": [
    "C14_attribute_quoting"
   ],
   "note": ""
  },
  {
   "property": "C15",
   "status": "partial",
   "theorems": [
    "C15_attribute_value_partial",
    "C15_attribute_value_refuted"
   ],
   "note": "False of the code for values with CR or LF (C15_attribute_value_refuted); holds for all others."
  },
  {
   "property": "C16",
   "status": "proved",
   "theorems": [
    "C16_sorted",
    "C16_last_write_wins",
    "C16_class_added",
    "C16_specification_sorted",
    "C16_added"
   ],
   "note": ""
  },
  {
   "property": "C17",
   "status": "proved",
   "theorems": [
    "C17_attributes_kept"
   ],
   "note": ""
  },
  {
   "property": "C18",
   "status": "proved",
   "theorems": [
    "C18_restricted_specification"
   ],
   "note": ""
  },
  {
   "property": "C19",
   "status": "proved",
   "theorems": [
    "C19_attribute_values"
   ],
   "note": "Digits are Unicode decimal digits (the repository's \\d)."
  },
  {
   "property": "C20",
   "status": "partial",
   "theorems": [
    "C20_prepared_partial",
    "C20_documents_partial",
    "C20_refuted"
   ],
   "note": "False of the code: the text of a link that shows its own URL is put out unescaped (C20_refuted). What holds: after the first step no document contains < or > (C20_prepared, every text); documents of paragraphs, headings and of code, preformatted and raw blocks with arbitrary characters yield only the parser's own tags (C20_documents). Missing: documents with inline markup."
  },
  {
   "property": "C21",
   "status": "partial",
   "theorems": [
    "C21_image_link_refuted",
    "C21_links_partial",
    "C21_images_partial"
   ],
   "note": "False of the code for the link around an image. Holds per marked link and per image for every state; the scheme of an image is checked before un-escaping."
  },
  {
   "property": "C22",
   "status": "partial",
   "theorems": [
    "C22_specifications_partial",
    "C22_refuted"
   ],
   "note": "False of the code: the title of a link is substituted after quoting (C22_refuted). What holds, for every specification text: a tag written with the attributes of a specification parsed in restricted mode has, as a tokenizer reads it, only attributes of a fixed list of names. Missing: attributes from images, links and cites."
  },
  {
   "property": "C23",
   "status": "partial",
   "theorems": [
    "C23_image_link_refuted",
    "C23_rel_partial"
   ],
   "note": "False of the code for the link around an image. Holds for every marked link."
  },
  {
   "property": "C24",
   "status": "partial",
   "theorems": [
    "C24_gt_refuted",
    "C24_url_cut_partial",
    "C24_links_partial"
   ],
   "note": "False of the code for a '>' which closes no tag at the end of the URL (lost). Holds otherwise."
  },
  {
   "property": "C25",
   "status": "partial",
   "theorems": [
    "C25_squares_refuted",
    "C25_parens_partial",
    "C25_squares_partial"
   ],
   "note": "False of the code for square brackets when bracketed text at the end was cut off first. Parentheses hold; square brackets hold when that text is counted."
  },
  {
   "property": "C26",
   "status": "partial",
   "theorems": [
    "C26_repeated_refuted",
    "C26_marking_partial",
    "C26_nearest_partial"
   ],
   "note": "False of the code: the text before the first quote may be repeated. What else can happen is characterised exactly; no change when the link text does not start with a space."
  },
  {
   "property": "C27",
   "status": "proved",
   "theorems": [
    "C27_link_loop_ends"
   ],
   "note": "For every uid without pattern metacharacters, text and state. The measure is the number of double quotes, then the length."
  },
  {
   "property": "C28",
   "status": "proved",
   "theorems": [
    "C28_reference",
    "C28_kept",
    "C28_distinct"
   ],
   "note": "Per reference for every state the parser can be in, preserved by all processing, and at the end of every parse."
  },
  {
   "property": "C29",
   "status": "partial",
   "theorems": [
    "C29_after_partial",
    "C29_before_refuted"
   ],
   "note": "False when the definition stands before the first reference (C29_before_refuted). Holds for every definition after a reference: with C28 the anchor is the href of all references."
  },
  {
   "property": "C30",
   "status": "proved",
   "theorems": [
    "C30_reference",
    "C30_kept",
    "C30_document"
   ],
   "note": "Per reference for every state, preserved by all processing; the document theorem is at the end of the block phase (note lists are rendered after it)."
  },
  {
   "property": "C31",
   "status": "partial",
   "theorems": [
    "C31_order_partial",
    "C31_ten_refuted"
   ],
   "note": "False from ten notes on (C31_ten_refuted: dictionary order of the numbers). Holds for up to nine; for any number the list is in dictionary order."
  },
  {
   "property": "C32",
   "status": "partial",
   "theorems": [
    "C32_after_partial",
    "C32_kept_partial",
    "C32_unreferenced_partial",
    "C32_before_refuted"
   ],
   "note": "False when the definition stands before the first reference: C32_before_refuted, for all such references. Holds for definitions after it; the text can only be replaced by a later definition."
  },
  {
   "property": "C33",
   "status": "partial",
   "theorems": [
    "C33_first_partial",
    "C33_kept_partial",
    "C33_later_refuted"
   ],
   "note": "False for every reference but the first (C33_later_refuted, universally). Holds for the first, and the note keeps the id."
  },
  {
   "property": "C34",
   "status": "partial",
   "theorems": [
    "C34_lists_refuted"
   ],
   "note": "False: every repeated list is empty (C34_lists_refuted, universally). The first list with its options shows all notes."
  },
  {
   "property": "C35",
   "status": "partial",
   "theorems": [
    "C35_restored_partial",
    "C35_any_order_partial",
    "C35_circular_refuted"
   ],
   "note": "False of the code as a whole: a document can store a fragment containing its own placeholder, then parse never returns (C35_circular_refuted). Holds for every store in which fragments mention earlier ones only (or any acyclic one), provided the placeholder prefix occurs in no literal part of the result."
  },
  {
   "property": "C36",
   "status": "proved",
   "theorems": [
    "C36_numbers",
    "C36_fragments",
    "C36_kept"
   ],
   "note": ""
  },
  {
   "property": "C37",
   "status": "partial",
   "theorems": [
    "C37_removed_partial",
    "C37_pieces_partial",
    "C37_nested_refuted"
   ],
   "note": "False: removal can join the halves of another occurrence (C37_nested_refuted). Holds when every occurrence stands at the start or after a character not in the prefix."
  },
  {
   "property": "C38",
   "status": "partial",
   "theorems": [
    "C38_plain_partial",
    "C38_forged_refuted",
    "C38_marker_refuted"
   ],
   "note": "False: C38_forged_refuted, and without forging C38_marker_refuted. Holds for documents of plain blocks."
  },
  {
   "property": "C39",
   "status": "partial",
   "theorems": [
    "C39_tidied",
    "C39_line_ends",
    "C39_blank_lines",
    "C39_outer_newlines_partial",
    "C39_last_blanks_refuted"
   ],
   "note": "False of the code for a document that ends in a line of blanks without a newline: a newline added to it changes the result. All the rest is proved for all settings; the result depends on the tidied document only."
  },
  {
   "property": "C40",
   "status": "partial",
   "theorems": [
    "C40_balanced_partial",
    "C40_change_of_kind_refuted"
   ],
   "note": "False of the code when a list below an item changes its kind (C40_change_of_kind_refuted: one closing tag too many). Holds (C40_balanced_partial) for documents of paragraphs and lists of any depth and width whose sub-lists keep their kind and whose items are plain words, in all settings except lite mode. Missing: items with attributes or inline markup, definition lists, lite mode."
  },
  {
   "property": "C41",
   "status": "partial",
   "theorems": [
    "C41_numbering_partial",
    "C41_largest_refuted"
   ],
   "note": "False of the code for the number 2^64-1, which overflows (C41_largest_refuted). C41_numbering_partial gives the exact HTML, or the overflow, of all documents of C40, with the numbers of all ordered lists (from 1, given, continued across lists and paragraphs). Missing: as for C40."
  },
  {
   "property": "C42",
   "status": "partial",
   "theorems": [
    "C42_kept_partial",
    "C42_refuted"
   ],
   "note": "False of the code: text in the same block before a table is lost (C42_refuted). C42_kept_partial: the step for tables keeps every block without a blank line that has a non-blank character after every bar. Paragraphs around a table are kept (C43_shape_partial)."
  },
  {
   "property": "C43",
   "status": "partial",
   "theorems": [
    "C43_shape_partial",
    "C43_image_refuted",
    "C43_caption_refuted"
   ],
   "note": "False of the code: images are looked for before tables and across bars (C43_image_refuted); a first row beginning with a centered cell is taken as a caption (C43_caption_refuted). C43_shape_partial gives the exact HTML of all documents of tables, lists and paragraphs, in all settings except lite mode; tables have any number of rows, loose or in groups, with or without a caption; cells are headings or not, span columns and rows, have vertical and horizontal alignments (in restricted mode not to the left, right or both, whose marks are encoded before), with plain words or nothing inside. Missing: classes, styles and languages of cells, attributes of rows, groups, captions and tables, groups of columns, inline markup in cells."
  },
  {
   "property": "C44",
   "status": "proved",
   "theorems": [
    "C44_depth_restored",
    "C44_beyond",
    "C44_bounded",
    "C44_ends",
    "C44_limit"
   ],
   "note": ""
  },
  {
   "property": "C45",
   "status": "partial",
   "theorems": [
    "C45_text_partial",
    "C45_signatures",
    "C45_refuted"
   ],
   "note": "False of the code as stated: bc. makes a code block in lite mode (C45_refuted). What holds: only p, bq and bc signatures are recognised, for every text (C45_signatures); and every document of the family lite_text (list marks, heading, pre, notextile and table signatures, a row of cells, over plain words) becomes one paragraph showing its text unchanged. Missing for the full claim: texts outside of the family."
  },
  {
   "property": "C46",
   "status": "partial",
   "theorems": [
    "C46_irrelevant",
    "C46_requests",
    "C46_text_partial"
   ],
   "note": "C46_irrelevant and C46_requests hold for every text: with images off the outcome is independent of the network, of image headers and of the image settings, and nothing is requested. C46_text: every document of the family picture_text (plain words with exclamation marks, slashes and ://, i.e. image markup) is shown unchanged in a paragraph. Missing: a statement about the absence of img tags for texts outside of the family (raw HTML may contain such tags)."
  },
  {
   "property": "C47",
   "status": "proved",
   "theorems": [
    "C47_requests",
    "C47_off"
   ],
   "note": "States what a parse that returns has requested."
  },
  {
   "property": "C48",
   "status": "proved",
   "theorems": [
    "C48_ends",
    "C48_found",
    "C48_local"
   ],
   "note": "The reader of the image is any world."
  },
  {
   "property": "C49",
   "status": "proved",
   "theorems": [
    "C49_paragraphs",
    "C49_documents"
   ],
   "note": "For every world, every parser with block tags, no sanitizer and a placeholder id of digits and letters other than x, restricted or not, HTML5 or XHTML, images on or off, and every number of paragraphs. Paragraphs are described by an automaton (SpecPlain.v): lines of words with marks. C49_documents mixes paragraphs, headings, code, preformatted and raw blocks in any order."
  },
  {
   "property": "C50",
   "status": "proved",
   "theorems": [
    "C50_headings"
   ],
   "note": "Not in lite mode, where headings are not recognised on purpose."
  },
  {
   "property": "C51",
   "status": "partial",
   "theorems": [
    "C51_code_partial",
    "C51_pre_partial",
    "C51_restricted_partial",
    "C51_restricted_refuted"
   ],
   "note": "False of the code in restricted mode, where the content is escaped twice. Proved outside restricted mode for every content without empty lines and placeholder prefix; the exact result in restricted mode is proved too."
  },
  {
   "property": "C52",
   "status": "partial",
   "theorems": [
    "C52_notextile_partial",
    "C52_br_refuted"
   ],
   "note": "False of the code for contents with a br tag, which gets a newline. Proved for all contents without one, outside restricted mode."
  },
  {
   "property": "C53",
   "status": "partial",
   "theorems": [
    "C53_spans_partial",
    "C53_refuted"
   ],
   "note": "Proved exactly for documents of one paragraph: any number of spans, any of the ten marks each, the marked text being any words of letters and digits separated by single blanks (no runs of three capitals, no digit before an x, which have meanings of their own), with any paragraph text before, between and after. Missing: spans with attributes, nested spans, marked text with punctuation, spans in lists, tables and other blocks. False in lite mode for a span before the last full stop of the text, where the code never appends the line break its pattern needs (C53_refuted)."
  },
  {
   "property": "C54",
   "status": "proved",
   "theorems": [
    "C54_pieces",
    "C54_no_group",
    "C54_whole_group",
    "C54_program_splits"
   ],
   "note": ""
  },
  {
   "property": "C55",
   "status": "proved",
   "theorems": [
    "C55_substitution",
    "C55_effectful_substitution",
    "C55_no_match",
    "C55_program_patterns"
   ],
   "note": ""
  },
  {
   "property": "C56",
   "status": "proved",
   "theorems": [
    "C56_new",
    "C56_set",
    "C56_dec"
   ],
   "note": ""
  },
  {
   "property": "C57",
   "status": "proved",
   "theorems": [
    "C57_decimal_references",
    "C57_hexadecimal_references"
   ],
   "note": "One reference in a text without other ampersands; every decimal and hexadecimal number."
  },
  {
   "property": "C58",
   "status": "proved",
   "theorems": [
    "C58_links",
    "C58_total"
   ],
   "note": "For every note, kind and start character."
  },
  {
   "property": "C59",
   "status": "proved",
   "theorems": [
    "C59_chunk",
    "C59_text"
   ],
   "note": "Every text: the step for glyphs cuts it into tags and texts between, keeps the tags and leaves no straight quote in the texts between, except those of the tags it puts in itself (abbr/acronym titles and caps spans). In restricted mode the texts between have no '<', which the parser has escaped before. The placeholder prefix is of the usual form."
  },
  {
   "property": "C60",
   "status": "partial",
   "theorems": [
    "C60_escaped_refuted",
    "C60_definitions_partial",
    "C60_addresses_partial"
   ],
   "note": "False of the code for aliases with escaped characters. Holds per text with definitions and per address token."
  },
  {
   "property": "C61",
   "status": "proved",
   "theorems": [
    "C61_rejected_url_inert"
   ],
   "note": "For every behaviour of the URL library (the world W)."
  },
  {
   "property": "C62",
   "status": "proved",
   "theorems": [
    "C62_more_steps",
    "C62_agreement"
   ],
   "note": "Adequacy of the step bound of the model."
  },
  {
   "property": "C63",
   "status": "proved",
   "theorems": [
    "C63_signed_blocks"
   ],
   "note": "Proved exactly for documents of any number of paragraphs, signed blocks (p, h1-h6, bq, bc, pre, notextile) with any attributes (marks of padding and alignment, then at most one class with identifier, style and language in any order, then marks again; names of letters, digits, '_', '-', blanks; declarations without brackets, quotes, '&' and '='), continued ones with any number of further blocks, and comments. Texts of p, headings and quotations are plain words; texts of bc, pre and notextile are any characters without blank lines. All settings, except that in lite mode only p, bq and bc occur. In restricted mode alignments to a side do not occur: their angle brackets are escaped before signatures are read (C63_sides). A parenthesis of padding that is not closed excludes ')' from the text (C63_unclosed shows why). Not covered: footnotes, citations, inline markup in the text."
  },
  {
   "property": "C64",
   "status": "partial",
   "theorems": [
    "C64_comment",
    "C64_between_refuted",
    "C64_comments",
    "C64_extended_refuted"
   ],
   "note": "C64_comment is for arbitrary other blocks (without blank lines inside, CR characters and placeholder prefixes; not in lite mode, which has no comments). The condition on the block after the comment is needed: a comment ends an extended part (C64_between_refuted). C64_comments adds documents with any number of comments after extended parts. Comments of several blocks ('###.. ') are not covered: they leave blank lines in the output (C64_extended_refuted)."
  },
  {
   "property": "C65",
   "status": "proved",
   "theorems": [
    "C65_inline_code"
   ],
   "note": ""
  },
  {
   "property": "C66",
   "status": "proved",
   "theorems": [
    "C66_attribute_items"
   ],
   "note": ""
  },
  {
   "property": "C67",
   "status": "proved",
   "theorems": [
    "C67_linked_documents"
   ],
   "note": ""
  },
  {
   "property": "C68",
   "status": "proved",
   "theorems": [
    "C68_pictured_documents"
   ],
   "note": ""
  },
  {
   "property": "C69",
   "status": "proved",
   "theorems": [
    "C69_blocks"
   ],
   "note": ""
  },
  {
   "property": "C70",
   "status": "proved",
   "theorems": [
    "C70_symbols"
   ],
   "note": ""
  },
  {
   "property": "C71",
   "status": "partial",
   "theorems": [
    "C71_order_partial",
    "C71_refuted"
   ],
   "note": "False of the code: rows before the first group are put behind all groups (C71_refuted). Proved for the tables of C43 in which all rows are in groups or none is. Missing: as in C43."
  },
  {
   "property": "C72",
   "status": "partial",
   "theorems": [
    "C72_marks_partial",
    "C72_valign_refuted",
    "C72_restricted_refuted"
   ],
   "note": "False of the code: a vertical alignment after the mark of a heading or a span is lost (C72_valign_refuted); in restricted mode alignments to the left or right become text (C72_restricted_refuted). Proved for all cells of the tables of C43 whose vertical alignment, if any, is the first mark. Missing: as in C43."
  },
  {
   "property": "C73",
   "status": "proved",
   "theorems": [
    "C73_definitions"
   ],
   "note": "Exact HTML of all documents of definition lists, lists and paragraphs of one line made of plain words. Not covered: attributes of the lines, definitions of several lines, inline markup inside of terms and definitions."
  },
  {
   "property": "C74",
   "status": "partial",
   "theorems": [
    "C74_words_kept_partial",
    "C74_no_term_refuted"
   ],
   "note": "False of the code: the definition of a line without a term is lost (C74_no_term_refuted). Proved for the definition lists of C73. Missing: other definition lists."
  },
  {
   "property": "C75",
   "status": "proved",
   "theorems": [
    "C75_footnotes"
   ],
   "note": "Exact HTML of all documents of lines of plain words with references and of footnotes of plain words, in any order and number. Not covered: attributes of footnotes, other inline markup, exclamation marks right before a reference (they make an image of it, C75_image)."
  },
  {
   "property": "C76",
   "status": "partial",
   "theorems": [
    "C76_links_meet_partial",
    "C76_early_footnote_refuted",
    "C76_same_identifier_refuted",
    "C76_fraction_refuted"
   ],
   "note": "False of the code: a footnote before its first reference gets another identifier than the one its references link to (C76_early_footnote_refuted), and two footnotes of one number get the same one (C76_same_identifier_refuted); references may be numbered by fractions, footnotes may not (C76_fraction_refuted). Proved for the documents of C75: a reference with a link and any footnote of its number after it share an identifier. Missing: other documents."
  },
  {
   "property": "C77",
   "status": "proved",
   "theorems": [
    "C77_untouched",
    "C77_code",
    "C77_comments",
    "C77_parts"
   ],
   "note": "Exact text and state after each of the steps no_textile, code and get_html_comments, for all texts and states. What the later steps do with the placeholders is the matter of C35 and, for whole documents, C65."
  },
  {
   "property": "C78",
   "status": "partial",
   "theorems": [
    "C78_comments_partial",
    "C78_bracket_refuted"
   ],
   "note": "False of the code: a closing bracket right after a comment is lost (C78_bracket_refuted: 'Foo (<!--a-->) bar'). Proved for every text in which no closing bracket stands right after '-->'. Missing: texts with such brackets."
  },
  {
   "property": "C79",
   "status": "proved",
   "theorems": [
    "C79_mixed"
   ],
   "note": "Unifies C43, C63 and C73: any sequence of blocks of these kinds. Texts in lists, tables and definition lists are lines of plain words; paragraphs and quotations may have several lines; code and comments have any text."
  },
  {
   "property": "C80",
   "status": "partial",
   "theorems": [
    "C80_apart_partial",
    "C80_continued_refuted"
   ],
   "note": "False of the code: a list that goes on is numbered after the one before it (C80_continued_refuted). Proved for the documents of C79 without such lists: equality with the blocks parsed one by one, panics included. Missing: blocks with other contents (spans, links, images, footnotes, references)."
  },
  {
   "property": "C81",
   "status": "partial",
   "theorems": [
    "C81_formed_partial",
    "C81_refuted"
   ],
   "note": "False of the code: a list below an item that changes its kind yields a closing tag too many (C81_refuted). Proved for the documents of C79, with raw blocks in restricted mode only; there it says that no text of the document becomes markup. Missing: blocks with other contents (spans, links, images, footnotes, references)."
  },
  {
   "property": "C82",
   "status": "proved",
   "theorems": [
    "C82_columns",
    "C82_row"
   ],
   "note": "Exact result of the two steps of a table that read such a line (row_colgroup, table_row), for all descriptions of span and width, texts after the line, settings and states; C82_example shows it in a whole document. Exact HTML of whole tables (C43) is proved without such lines."
  },
  {
   "property": "C83",
   "status": "proved",
   "theorems": [
    "C83_references",
    "C83_source"
   ],
   "note": "Exact text and state after the step, for all texts and states."
  },
  {
   "property": "C84",
   "status": "proved",
   "theorems": [
    "C84_division",
    "C84_unique"
   ],
   "note": "Existence and uniqueness of the division, for all texts."
  },
  {
   "property": "C85",
   "status": "proved",
   "theorems": [
    "C85_last",
    "C85_touch"
   ],
   "note": "The sanitizer is any function from texts to texts; what ammonia does is not modelled."
  },
  {
   "property": "C86",
   "status": "proved",
   "theorems": [
    "C86_line_breaks"
   ],
   "note": "Exact result for all texts. <p\u2026> includes tags like <pre> and <progress>: C86_other_tags."
  },
  {
   "property": "C87",
   "status": "proved",
   "theorems": [
    "C87_typography",
    "C87_apostrophes"
   ],
   "note": "Exact result for all texts: each of the 22 regular expressions is shown equal to a rule that does not search. The 23rd replacement (words in capitals) and the division of a text at its tags are not part of this claim."
  },
  {
   "property": "C88",
   "status": "proved",
   "theorems": [
    "C88_whole_text"
   ],
   "note": "Exact result for all texts; the rules do not mention regular expressions."
  },
  {
   "property": "C89",
   "status": "proved",
   "theorems": [
    "C89_prose"
   ],
   "note": "Whole documents; the result is given by rules that do not mention regular expressions. Unlike C70, marks may come in any order and next to each other."
  },
  {
   "property": "C90",
   "status": "proved",
   "theorems": [
    "C90_quotes",
    "C90_source"
   ],
   "note": "Exact result, text and state, for all texts; the places are described without regular expressions."
  },
  {
   "property": "C91",
   "status": "proved",
   "theorems": [
    "C91_definitions",
    "C91_source",
    "C91_unescaped"
   ],
   "note": "Exact result, text and state, for all texts, including exactly when it fails; the places are described without regular expressions. Also the exact result of reverse_encode_html on all texts."
  },
  {
   "property": "C92",
   "status": "partial",
   "theorems": [
    "C92_lines_partial",
    "C92_bytes_refuted",
    "C92_lengths_refuted",
    "C92_lost_refuted"
   ],
   "note": "False of the code for some texts with other than ASCII characters: the bytes before a newline may be cut within a character (C92_bytes_refuted), and positions found in the lower-case copy are used in the text itself, so a letter may be lost (C92_lengths_refuted, C92_lost_refuted). Proved exactly for every ASCII text. Missing: the other texts for which it holds."
  },
  {
   "property": "C93",
   "status": "partial",
   "theorems": [
    "C93_glossary_partial",
    "C93_lists",
    "C93_glossary_refuted"
   ],
   "note": "False of the code for lists that start with a meaning and hold a term: a second dl is opened, and if a meaning follows the term only one is closed (C93_glossary_refuted). Proved for every list that starts with a term, and the exact result of every list is C93_lists. Items without attributes and of one level; reading the items from the lines is outside the statement."
  },
  {
   "property": "C94",
   "status": "proved",
   "theorems": [
    "C94_caption",
    "C94_row"
   ],
   "note": "The row as the splitting of the table yields it. Captions with attributes are outside the statement."
  },
  {
   "property": "C95",
   "status": "proved",
   "theorems": [
    "C95_first",
    "C95_next"
   ],
   "note": "Group lines with attributes, or with blanks after the full stop, are outside the statement."
  }
 ]
}