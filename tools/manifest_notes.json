{
 "C12": "False of the code for CR and LF when line spacers are escaped (their entities are exchanged): C12_decode_refuted. Holds for every other text; injectivity holds for all.",
 "C13": "False of the code: every restricted URL with an ampersand panics (C13_unescape_url_refuted, for all such URLs). Holds exactly for the URLs without one.",
 "C15": "False of the code for values with CR or LF (C15_attribute_value_refuted); holds for all others.",
 "C57": "One reference in a text without other ampersands; every decimal and hexadecimal number.",
 "C61": "For every behaviour of the URL library (the world W).",
 "C09": "False of the code: set_align_class consumes the parser and returns nothing. What holds: the documented behaviour when unset.",
 "C10": "False of the code: the setting is never read, so both values give the same result on every document.",
 "C19": "Digits are Unicode decimal digits (the repository's \\d).",
 "C01": "False of the code: six documents or settings panic (the C01_*_refuted theorems). C01_panics_partial: with uids without pattern metacharacters, after any history of calls, these are the only panic sites.",
 "C06": "False when set_uid is called between two parses (C06_history_refuted). Holds for every history in which the uid is set before the first parse.",
 "C07": "For every history of setter calls and parses, any uid and any world.",
 "C28": "Per reference for every state the parser can be in, preserved by all processing, and at the end of every parse.",
 "C30": "Per reference for every state, preserved by all processing; the document theorem is at the end of the block phase (note lists are rendered after it).",
 "C47": "States what a parse that returns has requested.",
 "C48": "The reader of the image is any world.",
 "C02": "False of the code: marking of link starts never ends on an ordinary document (C02_inches_refuted, for every number of steps) and on a whole class of texts (C02_marking_refuted). The rewriting of links always ends; span recursion is bounded (C44).",
 "C21": "False of the code for the link around an image. Holds per marked link and per image for every state; the scheme of an image is checked before un-escaping.",
 "C23": "False of the code for the link around an image. Holds for every marked link.",
 "C24": "False of the code for a '>' which closes no tag at the end of the URL (lost). Holds otherwise.",
 "C25": "False of the code for square brackets when bracketed text at the end was cut off first. Parentheses hold; square brackets hold when that text is counted.",
 "C26": "False of the code: the text before the first quote may be repeated. What else can happen is characterised exactly; no change when the link text does not start with a space.",
 "C27": "For every uid without pattern metacharacters, text and state. The measure is the number of double quotes, then the length.",
 "C60": "False of the code for aliases with escaped characters. Holds per text with definitions and per address token.",
 "C39": "False of the code for a document that ends in a line of blanks without a newline: a newline added to it changes the result. All the rest is proved for all settings; the result depends on the tidied document only.",
 "C49": "For every world, every parser with block tags, no sanitizer and a placeholder id of digits and letters other than x, restricted or not, HTML5 or XHTML, images on or off, and every number of paragraphs. Paragraphs are described by an automaton (SpecPlain.v): lines of words with marks. C49_documents mixes paragraphs, headings, code, preformatted and raw blocks in any order.",
 "C50": "Not in lite mode, where headings are not recognised on purpose.",
 "C51": "False of the code in restricted mode, where the content is escaped twice. Proved outside restricted mode for every content without empty lines and placeholder prefix; the exact result in restricted mode is proved too.",
 "C52": "False of the code for contents with a br tag, which gets a newline. Proved for all contents without one, outside restricted mode.",
 "C29": "False when the definition stands before the first reference (C29_before_refuted). Holds for every definition after a reference: with C28 the anchor is the href of all references.",
 "C31": "False from ten notes on (C31_ten_refuted: dictionary order of the numbers). Holds for up to nine; for any number the list is in dictionary order.",
 "C32": "False when the definition stands before the first reference: C32_before_refuted, for all such references. Holds for definitions after it; the text can only be replaced by a later definition.",
 "C33": "False for every reference but the first (C33_later_refuted, universally). Holds for the first, and the note keeps the id.",
 "C34": "False: every repeated list is empty (C34_lists_refuted, universally). The first list with its options shows all notes.",
 "C58": "For every note, kind and start character.",
 "C35": "False of the code as a whole: a document can store a fragment containing its own placeholder, then parse never returns (C35_circular_refuted). Holds for every store in which fragments mention earlier ones only (or any acyclic one), provided the placeholder prefix occurs in no literal part of the result.",
 "C37": "False: removal can join the halves of another occurrence (C37_nested_refuted). Holds when every occurrence stands at the start or after a character not in the prefix.",
 "C38": "False: C38_forged_refuted, and without forging C38_marker_refuted. Holds for documents of plain blocks.",
 "C62": "Adequacy of the step bound of the model.",
 "C45": "False of the code as stated: bc. makes a code block in lite mode (C45_refuted). What holds: only p, bq and bc signatures are recognised, for every text (C45_signatures); and every document of the family lite_text (list marks, heading, pre, notextile and table signatures, a row of cells, over plain words) becomes one paragraph showing its text unchanged. Missing for the full claim: texts outside of the family.",
 "C46": "C46_irrelevant and C46_requests hold for every text: with images off the outcome is independent of the network, of image headers and of the image settings, and nothing is requested. C46_text: every document of the family picture_text (plain words with exclamation marks, slashes and ://, i.e. image markup) is shown unchanged in a paragraph. Missing: a statement about the absence of img tags for texts outside of the family (raw HTML may contain such tags).",
 "C20": "False of the code: the text of a link that shows its own URL is put out unescaped (C20_refuted). What holds: after the first step no document contains < or > (C20_prepared, every text); documents of paragraphs, headings and of code, preformatted and raw blocks with arbitrary characters yield only the parser's own tags (C20_documents). Missing: documents with inline markup.",
 "C22": "False of the code: the title of a link is substituted after quoting (C22_refuted). What holds, for every specification text: a tag written with the attributes of a specification parsed in restricted mode has, as a tokenizer reads it, only attributes of a fixed list of names. Missing: attributes from images, links and cites.",
 "C40": "False of the code when a list below an item changes its kind (C40_change_of_kind_refuted: one closing tag too many). Holds (C40_balanced_partial) for documents of paragraphs and lists of any depth and width whose sub-lists keep their kind and whose items are plain words, in all settings except lite mode. Missing: items with attributes or inline markup, definition lists, lite mode.",
 "C41": "False of the code for the number 2^64-1, which overflows (C41_largest_refuted). C41_numbering_partial gives the exact HTML, or the overflow, of all documents of C40, with the numbers of all ordered lists (from 1, given, continued across lists and paragraphs). Missing: as for C40.",
 "C42": "False of the code: text in the same block before a table is lost (C42_refuted). C42_kept_partial: the step for tables keeps every block without a blank line that has a non-blank character after every bar. Paragraphs around a table are kept (C43_shape_partial).",
 "C43": "False of the code: images are looked for before tables and across bars (C43_image_refuted); a first row beginning with a centered cell is taken as a caption (C43_caption_refuted). C43_shape_partial gives the exact HTML of all documents of tables, lists and paragraphs, in all settings except lite mode; tables have any number of rows, loose or in groups, with or without a caption; cells are headings or not, span columns and rows, have vertical and horizontal alignments (in restricted mode not to the left, right or both, whose marks are encoded before), with plain words or nothing inside. Missing: classes, styles and languages of cells, attributes of rows, groups, captions and tables, groups of columns, inline markup in cells.",
 "C59": "Every text: the step for glyphs cuts it into tags and texts between, keeps the tags and leaves no straight quote in the texts between, except those of the tags it puts in itself (abbr/acronym titles and caps spans). In restricted mode the texts between have no '<', which the parser has escaped before. The placeholder prefix is of the usual form.",
 "C53": "Proved exactly for documents of one paragraph: any number of spans, any of the ten marks each, the marked text being any words of letters and digits separated by single blanks (no runs of three capitals, no digit before an x, which have meanings of their own), with any paragraph text before, between and after. Missing: spans with attributes, nested spans, marked text with punctuation, spans in lists, tables and other blocks. False in lite mode for a span before the last full stop of the text, where the code never appends the line break its pattern needs (C53_refuted).",
 "C63": "Proved exactly for documents of any number of paragraphs, signed blocks (p, h1-h6, bq, bc, pre, notextile) with any attributes (marks of padding and alignment, then at most one class with identifier, style and language in any order, then marks again; names of letters, digits, '_', '-', blanks; declarations without brackets, quotes, '&' and '='), continued ones with any number of further blocks, and comments. Texts of p, headings and quotations are plain words; texts of bc, pre and notextile are any characters without blank lines. All settings, except that in lite mode only p, bq and bc occur. In restricted mode alignments to a side do not occur: their angle brackets are escaped before signatures are read (C63_sides). A parenthesis of padding that is not closed excludes ')' from the text (C63_unclosed shows why). Not covered: footnotes, citations, inline markup in the text.",
 "C64": "C64_comment is for arbitrary other blocks (without blank lines inside, CR characters and placeholder prefixes; not in lite mode, which has no comments). The condition on the block after the comment is needed: a comment ends an extended part (C64_between_refuted). C64_comments adds documents with any number of comments after extended parts. Comments of several blocks ('###.. ') are not covered: they leave blank lines in the output (C64_extended_refuted).",
 "C71": "False of the code: rows before the first group are put behind all groups (C71_refuted). Proved for the tables of C43 in which all rows are in groups or none is. Missing: as in C43.",
 "C72": "False of the code: a vertical alignment after the mark of a heading or a span is lost (C72_valign_refuted); in restricted mode alignments to the left or right become text (C72_restricted_refuted). Proved for all cells of the tables of C43 whose vertical alignment, if any, is the first mark. Missing: as in C43.",
 "C73": "Exact HTML of all documents of definition lists, lists and paragraphs of one line made of plain words. Not covered: attributes of the lines, definitions of several lines, inline markup inside of terms and definitions.",
 "C74": "False of the code: the definition of a line without a term is lost (C74_no_term_refuted). Proved for the definition lists of C73. Missing: other definition lists.",
 "C75": "Exact HTML of all documents of lines of plain words with references and of footnotes of plain words, in any order and number. Not covered: attributes of footnotes, other inline markup, exclamation marks right before a reference (they make an image of it, C75_image).",
 "C76": "False of the code: a footnote before its first reference gets another identifier than the one its references link to (C76_early_footnote_refuted), and two footnotes of one number get the same one (C76_same_identifier_refuted); references may be numbered by fractions, footnotes may not (C76_fraction_refuted). Proved for the documents of C75: a reference with a link and any footnote of its number after it share an identifier. Missing: other documents.",
 "C77": "Exact text and state after each of the steps no_textile, code and get_html_comments, for all texts and states. What the later steps do with the placeholders is the matter of C35 and, for whole documents, C65.",
 "C78": "False of the code: a closing bracket right after a comment is lost (C78_bracket_refuted: 'Foo (<!--a-->) bar'). Proved for every text in which no closing bracket stands right after '-->'. Missing: texts with such brackets.",
 "C79": "Unifies C43, C63 and C73: any sequence of blocks of these kinds. Texts in lists, tables and definition lists are lines of plain words; paragraphs and quotations may have several lines; code and comments have any text.",
 "C80": "False of the code: a list that goes on is numbered after the one before it (C80_continued_refuted). Proved for the documents of C79 without such lists: equality with the blocks parsed one by one, panics included. Missing: blocks with other contents (spans, links, images, footnotes, references).",
 "C81": "False of the code: a list below an item that changes its kind yields a closing tag too many (C81_refuted). Proved for the documents of C79, with raw blocks in restricted mode only; there it says that no text of the document becomes markup. Missing: blocks with other contents (spans, links, images, footnotes, references).",
 "C82": "Exact result of the two steps of a table that read such a line (row_colgroup, table_row), for all descriptions of span and width, texts after the line, settings and states; C82_example shows it in a whole document. Exact HTML of whole tables (C43) is proved without such lines.",
 "C83": "Exact text and state after the step, for all texts and states.",
 "C84": "Existence and uniqueness of the division, for all texts.",
 "C85": "The sanitizer is any function from texts to texts; what ammonia does is not modelled.",
 "C86": "Exact result for all texts. <p…> includes tags like <pre> and <progress>: C86_other_tags.",
 "C87": "Exact result for all texts: each of the 22 regular expressions is shown equal to a rule that does not search. The 23rd replacement (words in capitals) and the division of a text at its tags are not part of this claim.",
 "C88": "Exact result for all texts; the rules do not mention regular expressions.",
 "C89": "Whole documents; the result is given by rules that do not mention regular expressions. Unlike C70, marks may come in any order and next to each other.",
 "C90": "Exact result, text and state, for all texts; the places are described without regular expressions.",
 "C91": "Exact result, text and state, for all texts, including exactly when it fails; the places are described without regular expressions. Also the exact result of reverse_encode_html on all texts.",
 "C92": "False of the code for some texts with other than ASCII characters: the bytes before a newline may be cut within a character (C92_bytes_refuted), and positions found in the lower-case copy are used in the text itself, so a letter may be lost (C92_lengths_refuted, C92_lost_refuted). Proved exactly for every ASCII text. Missing: the other texts for which it holds.",
 "C93": "False of the code for lists that start with a meaning and hold a term: a second dl is opened, and if a meaning follows the term only one is closed (C93_glossary_refuted). Proved for every list that starts with a term, and the exact result of every list is C93_lists. Items without attributes and of one level; reading the items from the lines is outside the statement.",
 "C94": "The row as the splitting of the table yields it. Captions with attributes are outside the statement.",
 "C95": "Group lines with attributes, or with blanks after the full stop, are outside the statement."
}
