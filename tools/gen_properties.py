#!/usr/bin/env python3
"""Writes /verif/properties.jsonl (one property per line)."""
import json, os
P = []
def p(title, statement, quantifier, why, anchors):
    P.append(dict(id="C%02d" % (len(P) + 1), title=title, statement=statement,
                  quantifier=quantifier, why_tests_cant=why, anchors=anchors))

ALLIN = "every input text, every configuration"
p("parse never panics",
  "Textile::parse returns a String for every input; no input makes it panic.",
  "every input text (any Unicode), every configuration built with the public setters",
  "A panic hides at one crafted input; tests sample a few hundred texts.",
  ["src/parser.rs: Textile::parse", "src/htmltools.rs: reverse_encode_html", "src/block.rs: BlockAttributes::parse", "src/parser.rs: do_tag_br/insert_brs"])
p("parse terminates",
  "Textile::parse finishes on every input.",
  "every input text, every configuration",
  "Non-termination cannot be observed by a finite test, and the looping inputs are rare shapes.",
  ["src/parser.rs: mark_start_of_links", "src/parser.rs: retrieve", "src/parser.rs: replace_links"])
p("blank documents are returned unchanged",
  "If the text has only whitespace, parse returns it byte for byte; it is the only case in which the pipeline is skipped.",
  "every whitespace-only text over all Unicode White_Space characters, every configuration", "infinitely many blank texts",
  ["src/parser.rs: Textile::parse"])
p("output never ends with a newline",
  "For a non-blank text the returned HTML does not end in a newline.",
  ALLIN, "must hold whatever the pipeline produced", ["src/parser.rs: Textile::parse"])
p("every break tag is followed by a newline",
  "Every <br> or <br /> in the returned HTML is immediately followed by a newline, or by nothing but newline-trimmed end of output.",
  ALLIN, "must hold whatever the pipeline produced", ["src/parser.rs: Textile::parse BR_PATTERN"])
p("parse is history independent",
  "The HTML returned by parse depends only on the current settings and the text, not on which documents the same Textile value parsed before nor on when the setters were called.",
  "every sequence of setter and parse calls on one Textile value", "needs all histories; the tests parse with fresh or identically configured parsers",
  ["src/parser.rs: Textile::regex_cache, set_uid, retrieve_tags, retrieve_urls, replace_links, do_tag_br"])
p("the shared pattern cache is never borrowed twice",
  "No parse call fails because the interior-mutable pattern cache of the Textile value is borrowed while already borrowed.",
  "every input and configuration, every nesting of links, images, spans, lists and tables", "depends on the call nesting any input can provoke",
  ["src/parser.rs: regex_cache.borrow_mut"])
p("setters are independent",
  "Each set_* method changes exactly its own setting; the last call wins; calls to different setters commute.",
  "every sequence of setter calls and every value", "quantifies over all call sequences",
  ["src/parser.rs: impl Textile"])
p("the align-class setting can be used",
  "set_align_class makes a parser which aligns images with a class (true) or with the align attribute (false).",
  "every sequence of public builder calls", "a reachability statement over all call sequences",
  ["src/parser.rs: Textile::set_align_class"])
p("the raw-blocks setting has its documented effect",
  "With raw blocks enabled, a paragraph wrapped in an unknown tag is left as is; with it disabled it is parsed.",
  "every text and both values of the setting", "an effect that is absent for all texts cannot be shown by examples",
  ["src/parser.rs: Textile::set_raw_blocks"])
p("escaping leaves no markup characters",
  "Escaped text (restricted input, code, pre, URLs) contains no '<' or '>', no quote when quotes are escaped, and every '&' in it starts one of the emitted entities.",
  "every text, every combination of escaping options", "all texts",
  ["src/htmltools.rs: encode_html"])
p("escaping loses nothing",
  "Decoding the entities of an escaped text gives back the text; different texts have different escaped forms.",
  "every text, every combination of escaping options", "round trip over all strings",
  ["src/htmltools.rs: encode_html, unescape"])
p("un-escaping a restricted URL gives back the URL",
  "In restricted mode a URL, escaped with the rest of the document, is restored to what the author typed before it is normalised.",
  "every URL text", "round trip over all strings", ["src/htmltools.rs: reverse_encode_html", "src/parser.rs: unrestrict_url"])
p("attribute values cannot leave their quotes",
  "A quoted attribute value starts and ends with the same quote character, which does not occur inside, and contains no '<' or '>'.",
  "every attribute value", "all strings", ["src/htmltools.rs: quoteattr"])
p("attribute values keep their meaning",
  "The value an HTML reader decodes from a quoted attribute is the value that was put in.",
  "every attribute value", "round trip over all strings", ["src/htmltools.rs: quoteattr, encode_html"])
p("attribute lists are sorted, unique, last write wins",
  "Attributes of a generated tag are in strictly increasing name order; setting one again replaces its value and no other.",
  "every sequence of insertions, class additions included", "invariant over all operation sequences",
  ["src/block.rs: BlockHtmlAttributes"])
p("attribute names that are not valid are dropped",
  "A generated tag contains exactly the attributes whose names have only valid characters, in order.",
  "every attribute list", "all attribute lists", ["src/htmltools.rs: join_html_attributes, generate_tag"])
p("restricted mode ignores document chosen class, id and style",
  "In restricted mode no attribute specification yields a class or id, and the style consists only of the parser's own alignment and padding declarations.",
  "every attribute specification string, every element kind", "all strings", ["src/block.rs: BlockAttributes::parse"])
p("class, id, span and width values are of their lexical form",
  "In any mode a class has only characters of [-a-zA-Z 0-9_./[]], an id only [-a-zA-Z0-9_.:], and colspan/rowspan/span/width are digit strings.",
  "every attribute specification string", "all strings", ["src/block.rs: BlockAttributes::parse"])
p("restricted mode lets no raw HTML through",
  "In restricted mode every '<' of the output starts one of the tags the parser itself generates.",
  "every input text", "a safety claim against all inputs", ["src/parser.rs: Textile::parse, replace_links, glyphs"])
p("only whitelisted URL schemes become links",
  "The href of every generated link and the src of every image is relative or has a scheme of the mode's whitelist.",
  "every input text, both modes", "a safety claim against all inputs", ["src/parser.rs: replace_links, image, is_valid_url, get_refs"])
p("document text cannot inject attributes",
  "In restricted mode a document cannot make a generated tag carry an attribute which the parser did not generate (such as an event handler).",
  "every input text", "a safety claim against all inputs", ["src/parser.rs: replace_links, span, table, textile_lists, retrieve"])
p("rel is forced on all links",
  "With set_rel(Some(v)) every generated <a> for a link in the document carries rel with value v.",
  "every input text and every v", "all inputs", ["src/parser.rs: replace_links, image"])
p("trailing punctuation of a URL is handed back to the text",
  "When a link's URL is cut, the kept URL followed by the text handed back is the original URL, except for unbalanced closing square brackets, which are dropped; the kept URL does not end in '!?:;.,'.",
  "every URL text", "all strings", ["src/parser.rs: replace_links (URL loop)"])
p("balanced brackets stay in the URL",
  "A closing parenthesis at the end of the URL is kept when the parentheses of the URL are balanced and handed back otherwise; a closing square bracket likewise kept or dropped.",
  "every URL text", "all strings", ["src/parser.rs: replace_links", "src/charcounter.rs"])
p("marking link starts changes nothing else",
  "Before links are recognised their starts are marked; removing the marks gives back the text.",
  "every text", "all strings", ["src/parser.rs: mark_start_of_links"])
p("link recognition terminates",
  "The loop that rewrites marked links ends: with enough steps it does not run out of them, and more steps change nothing.",
  "every marked text", "termination", ["src/parser.rs: replace_links"])
p("footnote references and ids",
  "All references to one footnote number use one id, different numbers have different ids, and an id attribute is emitted only for the first reference.",
  "every sequence of footnote references and other id allocations in a document", "invariant over all histories", ["src/parser.rs: footnote_ref, increment_link_index"])
p("a footnote definition and its references agree",
  "The anchor of footnote n is the target of the references [n], wherever the definition stands.",
  "every document with references and definitions in any order", "all orders", ["src/block.rs: Block::new", "src/parser.rs: footnote_ref"])
p("notes are numbered by first reference",
  "Note references are numbered 1, 2, 3, … in the order in which their labels are first referenced; later references repeat the number; every reference has its own anchor.",
  "every sequence of note references", "invariant over all histories", ["src/parser.rs: note_ref"])
p("the note list is in numeric order",
  "A note list shows the referenced notes in the order of their numbers.",
  "every number of notes", "unbounded number of notes", ["src/parser.rs: place_note_lists"])
p("a note definition is kept wherever it stands",
  "A defined and referenced note is shown with its text in the note list, whether the definition precedes or follows the reference.",
  "every order of definitions and references", "all orders", ["src/parser.rs: parse_note_defs, note_ref, place_note_lists"])
p("every note reference links to its note",
  "The href of each note reference is the anchor id of the note.",
  "every sequence of references", "all histories", ["src/parser.rs: note_ref"])
p("a repeated note list is repeated",
  "Two note lists with the same options show the same items.",
  "every document with two equal note list markers", "all histories", ["src/parser.rs: place_note_lists (notelist_cache)"])
p("stored fragments are restored",
  "Every fragment put aside during parsing is put back exactly where its placeholder stands, nested ones included; no placeholder of a stored fragment is left, and the restoration ends.",
  "every store whose fragments mention only placeholders of earlier fragments, every text", "unbounded nesting", ["src/parser.rs: shelve, retrieve"])
p("placeholders are never reused",
  "Each fragment, URL or tag put aside gets a placeholder number that no other one has in the same parse.",
  "every sequence of store operations", "all histories", ["src/parser.rs: shelve, shelve_url, store_tags"])
p("a document cannot forge placeholders",
  "After the parser has removed its own token prefix from the input, the prefix does not occur in the text.",
  "every input text and uid", "all strings", ["src/parser.rs: Textile::parse (uid removal)"])
p("no placeholder leaks into the output",
  "The returned HTML does not contain the parser's internal token prefix (unless an id needs it).",
  "every input text", "all inputs", ["src/parser.rs: mark_start_of_links, replace_links"])
p("line ending style does not matter",
  "A document with CRLF or CR line endings gives the same HTML as with LF; leading and trailing newlines are ignored; lines of blanks and tabs are the same as empty lines.",
  "every text", "all texts", ["src/parser.rs: normalize_newlines"])
p("list markup is balanced",
  "The HTML of a list has matching opening and closing ul/ol/dl and li/dt/dd tags.",
  "every list of items of every marker sequence", "unbounded nesting", ["src/parser.rs: textile_lists"])
p("ordered list numbering",
  "An ordered list starts at 1, at the given number, or (with '_') continues after the last item of the previous list with the same marker; the start attribute says so.",
  "every sequence of list items", "all histories", ["src/parser.rs: textile_lists (ol_starts)"])
p("text around a table is kept",
  "Text standing in the same block before a table is not lost.",
  "every block with a table", "all texts", ["src/parser.rs: table"])
p("table shape",
  "Every row of the source yields one tr, with one cell per '|' separated part, th exactly for cells marked '_'.",
  "every table", "unbounded tables", ["src/table.rs: process_table"])
p("span nesting is bounded",
  "Inline spans nest at most max_span_depth (5) deep; the depth counter is restored after every call.",
  "every text", "unbounded nesting", ["src/parser.rs: span"])
p("lite mode allows only paragraphs and blockquotes",
  "With set_lite(true) no heading, list, table, preformatted or code block is produced from Textile block markup.",
  "every input text", "all inputs", ["src/parser.rs: block, BLOCK_TAGS_LITE_RE_S"])
p("disabled images are not produced",
  "With set_images(false) the document's image markup yields no img tag and no image URL is stored.",
  "every input text", "all inputs", ["src/parser.rs: graf, replace_links"])
p("no network access unless requested",
  "parse makes no HTTP request unless set_getting_image_size(true); with it only absolute image URLs of a whitelisted scheme are requested.",
  "every input text and configuration", "an effect absent on all inputs", ["src/parser.rs: image, get_image_size"])
p("image probing reads at most 1 KiB",
  "Determining an image's size reads at most 1024 bytes, never indexes outside the buffer and ends after finitely many reads.",
  "every sequence of read results", "all schedules of a network peer", ["src/parser.rs: get_image_size"])
p("plain paragraphs",
  "A document of plain paragraphs separated by blank lines becomes the same paragraphs, each in <p>…</p>, in order, text unchanged.",
  "every list of plain paragraphs (words of letters and single spaces), any length", "unbounded documents", ["src/parser.rs: parse, block, graf", "src/block.rs: Block::new"])
p("headings",
  "'hN. text' becomes <hN>text</hN> for plain text.",
  "every N in 1..6 and every plain text", "unbounded texts", ["src/parser.rs: block", "src/block.rs: Block::new"])
p("code blocks show their content verbatim",
  "'bc. c' and 'pre. c' show exactly the characters of c, escaped; no markup inside c is interpreted.",
  "every content c without a blank line, every token uid of hex digits", "all contents", ["src/block.rs: Block::new", "src/parser.rs: shelve, retrieve"])
p("notextile blocks are verbatim",
  "'notextile. c' emits c unchanged.",
  "every content c without a blank line", "all contents", ["src/block.rs: Block::new"])
p("inline spans",
  "'*w*', '_w_', … become the tag of the marker around w.",
  "every plain w, all ten markers", "unbounded texts", ["src/parser.rs: span, store_tags, retrieve_tags"])
p("splitting a text by a pattern loses nothing",
  "The pieces obtained by splitting a text at the matches of a pattern, with the matches put back, are the text.",
  "every pattern and every text", "all patterns and texts", ["src/regextra.rs: ReSplitWithCapture"])
p("pattern substitution touches only the matches",
  "Substituting the matches of a pattern keeps every character outside of the matches, in order; a text without match is unchanged.",
  "every pattern, text and replacement function", "all patterns and texts", ["src/regextra.rs: multi_replace, multi_replace_with_one"])
p("character counters",
  "A counter is independent of the others, never goes below zero, and is refused for a character it was not created for or before it is set.",
  "every counter state and operation sequence", "all histories", ["src/charcounter.rs"])
p("numeric character references decode safely",
  "Decoding '&#n;' yields the code point n, its Windows-1252 replacement, U+FFFD for surrogates and out-of-range numbers, or nothing for invalid code points; it panics only when n exceeds 32 bits.",
  "every n", "2^32 values and beyond", ["src/htmltools.rs: replace_charref"])
p("back references to notes use successive symbols",
  "The back links of a note use successive characters from the requested start, one per reference, in order; one of the special note symbols is repeated instead. Notes of kind '!' have no back links, those of kind '^' only the first.",
  "every number of references and every start character", "unbounded", ["src/parser.rs: make_back_ref_link"])
p("glyph substitution leaves no straight quotes in text",
  "In text outside of tags every straight single or double quote is replaced by an entity.",
  "every text chunk", "all texts", ["src/parser.rs: make_glyph_replacers, glyphs"])
p("URL aliases",
  "A link whose URL is an alias defined in the document is emitted with the alias's URL; the last definition of an alias wins.",
  "every set of alias definitions", "all histories", ["src/parser.rs: get_refs, retrieve_urls"])
p("percent-encoding of invalid URLs makes them inert",
  "A URL the URL library rejects even as a relative reference is emitted with every byte other than ASCII letters and digits percent-encoded, so it has no scheme.",
  "every URL text", "all strings", ["src/urlutils.rs: UrlBits::parse"])
p("the result does not depend on the number of steps allowed to the loops",
  "The loops of the parser (link marking, link rewriting, restoration, nested text) are modelled with a bound on their steps. A call that returns under some bound returns the same under every larger one.",
  "every document, settings and pair of bounds", "all bounds", ["src/parser.rs: mark_start_of_links, replace_links, retrieve, graf"])
p("blocks with a signature and the blocks that continue them",
  "A block introduced by a signature (p, h1 to h6, bq, bc, pre, notextile) with optional attributes (paddings, alignments, class and identifier, style declarations, language) is wrapped in the elements of its signature, which carry exactly the attributes written there (the language of code becomes a class of the code element, if it is a name; in restricted mode classes, identifiers and declarations are dropped). With two dots the following blocks up to the next signature belong to it: they share its outer element and each gets the inner one. Nothing of the text is lost.",
  "every sequence of such blocks, every list of attributes in a recognised order, every setting; plain words in paragraphs, headings and quotations, any text without blank lines in code, preformatted and raw blocks", "unbounded sequences of blocks and texts", ["src/parser.rs: block", "src/block.rs: Block::new"])
p("comments leave no trace",
  "A comment of one block leaves no trace: with it and without it parse gives the same result and the same state, whatever the other blocks are (lists, tables, links, raw HTML, also those on which parse panics), unless the block after the comment would belong to an extended part that the comment ends.",
  "every document of blocks with a comment between them", "unbounded documents", ["src/parser.rs: block", "src/block.rs: Block::new"])
p("inline code and untouched fragments are reproduced",
  "A fragment written between '@' signs is shown in a code element with exactly its characters, '&', '<' and '>' escaped (once more than the input already is in restricted mode); a fragment written between '==' is shown exactly as it is. The inline markup inside of either is not interpreted, and the text around them is kept.",
  "every document of paragraphs of plain words with any number of such fragments; a fragment is any non-empty line without its own closing mark, the tags <notextile> and <code>, '==' in code, line break tags in untouched fragments, and the tokens of the instance", "unbounded documents and fragments", ["src/parser.rs: no_textile, code, do_special, shelve, retrieve"])
p("attribute specifications mean what they say",
  "A specification of attributes made of style declarations, a language, a class and identifier, paddings, a horizontal and (cells and rows) vertical alignment and (cells) spans, the mark of a heading and a final stop, in any order and at most one of each, yields exactly the attributes these stand for, in alphabetical order: the declarations trimmed and joined, followed by those of paddings and alignment; in restricted mode without classes, identifiers and declarations.",
  "every such specification in every order, every element other than col, restricted or not", "unbounded orders and texts", ["src/block.rs: BlockAttributes::parse, html_attrs"])
p("links",
  "A link, a text in double quotes followed by a colon and an address, becomes an a element around the text, whose href is the address: as the URL library prints it if it is absolute with an accepted scheme, unchanged if it is relative; escaped; followed by the configured rel. Punctuation after the address is text again. The text around the links is kept.",
  "every document of paragraphs of plain words with any number of links, every restricted or unrestricted, lite or full settings; addresses of letters, digits and the usual signs", "unbounded documents and addresses", ["src/parser.rs: links, mark_start_of_links, replace_links, f_link, shelve_url, shelve, retrieve, retrieve_urls"])
p("images",
  "An image, an address between exclamation marks with an optional side before and an optional text in parentheses after the address, becomes an img element with the address as src, the text as alt and title (alt is empty without a text), and the side as a class or as align; an address after it, with any scheme, makes it the content of an a element. Addresses are printed as in links. The text around the images is kept.",
  "every document of paragraphs of plain words with any number of images, every restricted or unrestricted, lite or full settings without image sizes; addresses of letters, digits and the usual signs", "unbounded documents and addresses", ["src/parser.rs: image, shelve_url, shelve, retrieve, retrieve_urls"])
p("break tags are spelled in one way",
  "In what a block adds to the page every break tag, however the author spelled it (case, white space, slash), is spelled as the kind of document requires; texts that are set aside are put back later, as they are.",
  "every block, state and setting", "all texts", ["src/parser.rs: block, do_p_br"])
p("typographic symbols",
  "Symbols between words become the characters they stand for: 2x3 a multiplication sign, apostrophes, '89, single and double quotation marks around a word, three dots after a word, dashes, (tm), (r), (c), fractions, degree and plus-minus; an ampersand, alone or inside of a word, is escaped. The words around them are kept.",
  "every document of paragraphs of plain words with any number of such symbols between blanks, every setting with block tags and without a sanitizer", "unbounded documents", ["src/parser.rs: glyphs, make_glyph_replacers"])
p("order of the rows of a table",
  "The rows of a table stand in the HTML in the order in which they stand in the source.",
  "every table", "unbounded tables", ["src/table.rs: process_table"])
p("marks of cells take effect",
  "Every mark of a cell takes effect: heading, number of columns and rows it spans, vertical and horizontal alignment.",
  "every cell of every table", "unbounded tables", ["src/table.rs: process_table", "src/block.rs: BlockAttributes::parse"])
p("definition lists",
  "A block of lines '- term := definition' becomes a dl element with, for each line in turn, a dt element of exactly the term and, when the line has a definition, a dd element of exactly the definition; lists and paragraphs around it, and the numbers of ordered lists that go on after it, are not affected.",
  "every document of definition lists (any number of lines, one with a definition at least), bullet and ordered lists of any depth, and paragraphs of one line, all of plain words; every setting with block tags, without lite mode and sanitizer", "unbounded documents", ["src/parser.rs: redcloth_list", "src/parser.rs: textile_lists", "src/parser.rs: graf"])
p("the words of definition lists are kept",
  "Every term of a definition list is the content of a dt element, and every definition that of a dd element.",
  "every definition list", "unbounded documents", ["src/parser.rs: redcloth_list"])
p("footnotes",
  "A reference '[n]' after a word becomes a sup element with a link to the footnote, '[n!]' one without a link; the first reference to a number has an identifier that links back can name. A block 'fnN. text' becomes a paragraph of class footnote that starts with the number and bears the identifier to which the references with this number link; 'fnN^. text' has a link back to the first reference. Identifiers are the configured prefix and numbers counted through. The words around references, and those of the footnotes, are kept.",
  "every document of lines of plain words with any number of references, and of footnotes, in any order; every setting with block tags, without lite mode and sanitizer, whose prefix is made of letters, digits and hyphens", "unbounded documents", ["src/parser.rs: footnote_ref", "src/parser.rs: graf", "src/block.rs: Block::new"])
p("references lead to their footnotes",
  "The link of a reference and the footnote of its number have the same identifier, and no two footnotes have the same one.",
  "every document with references and footnotes", "unbounded documents", ["src/parser.rs: footnote_ref", "src/block.rs: Block::new"])
p("fragments between marks are found and set aside",
  "Each step that looks for fragments between two marks (notextile tags and ==, code tags and @, pre tags, comments) finds exactly the fragments that start at the start of a line, after a white space or an opening bracket, '>' or '|', and end at the first closing mark; it stores exactly the content (code and preformatted text escaped) under the next number, leaves its placeholder, drops square brackets around a fragment and keeps all the rest of the text.",
  "every text and every state of the parser", "all texts", ["src/parser.rs: do_special, get_special_options, f_textile, no_textile, code, get_html_comments"])
p("the text around comments is kept",
  "With the comments back in their places, the step for HTML comments changes nothing in the text.",
  "every text and every state", "all texts", ["src/parser.rs: get_html_comments"])
p("documents of blocks of all kinds",
  "In a document that mixes paragraphs, headings, quotations, preformatted text, code and comments with attributes, alone or going on over further blocks, with lists, tables and definition lists, every block is shown as its own kind demands, in the order of the source, with blank lines between; the numbers of ordered lists that go on are those after the last list before, whatever stands between.",
  "every sequence of such blocks of plain words (any length, any nesting of lists, any size of tables), every setting with block tags, without lite mode and sanitizer; only a block with a signature follows a part that goes on", "unbounded documents", ["src/parser.rs: block, graf, textile_lists, redcloth_list, table", "src/block.rs: Block::new"])
p("blocks do not affect each other",
  "The HTML of a document is that of its blocks, each parsed on its own, put one below the other.",
  "every document", "unbounded documents", ["src/parser.rs: block, parse"])
p("the HTML is well formed",
  "The HTML consists of text without angle brackets, break tags, and elements of the parser's own names that are closed in the order they were opened; attributes have known names and values without quotes or angle brackets.",
  "every document without raw HTML", "unbounded documents", ["src/parser.rs: parse, block, textile_lists", "src/html.rs: generate_tag"])
p("columns of tables",
  "A line '|:' of column descriptions becomes one colgroup element with an element for every description, with the span and the width that were asked for; what stands after the line is read as the next row, and the other parts of the table stay as they are.",
  "every list of descriptions (any length, any numbers), any table around it, every setting and state", "unbounded lists of descriptions", ["src/table.rs: process_table", "src/block.rs: BlockAttributes::parse"])
p("references of footnotes in any text",
  "The step that looks for references finds exactly the brackets around digits (with an exclamation mark or not) that follow a character other than a white space, replaces each by its mark, takes a new identifier for each new number, and keeps all the rest of the text and of the state.",
  "every text, every state, every setting whose prefix is made of letters, digits and hyphens", "all texts", ["src/parser.rs: footnote_ref"])
p("division into blocks",
  "A text is divided into blocks at, and only at, the runs of two or more newlines, each run taken as a whole; nothing is lost; there is only one such division.",
  "every text", "all texts", ["src/parser.rs: block", "src/regextra.rs"])
p("the sanitizer comes last",
  "The sanitizer is given the whole HTML, once, and has no influence on anything else: the text it gets is the same whatever it does. What it returns is the result, but for break tags without a newline after them, which are written anew with one, and newlines at the end, which are dropped.",
  "every document that is not blank, every setting, every sanitizer (any function from texts to texts)", "all texts and all functions", ["src/parser.rs: parse", "src/parser.rs: set_sanitize, adjust_sanitizer"])
p("line breaks in paragraphs and headings",
  "The step that breaks lines works between a tag <p…> or <h1…> to <h6…> and the last end tag of that name: there every newline becomes a break tag, except before a white space or a bar, and a break tag written out before such a newline is not doubled. Everything else is kept, the state too, and the step never fails.",
  "every text, every state, every setting", "all texts", ["src/parser.rs: do_p_br"])
p("the typographic replacements on every text",
  "The table of 22 typographic replacements does, on every text, what 22 rules tell, one after the other, each from left to right: a mark (quotes, dashes, three points, an ampersand between blanks, (c), (r), (tm), fractions, degree, plus-minus) becomes a symbol if what must stand before and after it does; an x between numbers becomes a times sign, an apostrophe before a year a closing quote, and capitals with words in brackets an abbreviation. No straight apostrophe is left.",
  "every text, both kinds of HTML", "all texts", ["src/parser.rs: make_glyph_replacers", "src/regextra.rs: multi_replace"])
p("the typography of a whole text",
  "Of every text, the typographic step keeps the tags and sets the texts between them: outside restricted mode '<', '>' and every '&' that begins no character reference are escaped, then the 22 rules of C87 are applied, then the capitals of words with three capitals or more are marked with a token. Newlines at the end are dropped. The step never fails and leaves the state alone.",
  "every text, every state, every setting whose token prefix is of the kind the library makes", "all texts", ["src/parser.rs: glyphs", "src/parser.rs: make_glyph_replacers", "src/regextra.rs: split_with_capture", "src/regextra.rs: multi_replace"])
p("documents of prose",
  "A document of paragraphs of prose becomes these paragraphs, each in its own p element, with its line breaks, and with its text set exactly as the typographic rules of C87 and C88 tell. Prose is words of letters, digits, hyphens and any of ,;./'\"&#$)]}\\` in any order, with single blanks and newlines between, dashes between blanks, '?' and '!' at the end of words; no three capitals in a row; a paragraph starts with an ASCII capital, a digit or a quote, and a quote after a blank is followed by a letter or a digit and one more character.",
  "any number of such paragraphs, every setting whose token prefix is of the kind the library makes, with block tags and without a sanitizer, restricted mode or not, both kinds of HTML", "all documents of this kind, with quotes and other marks in any combination", ["src/parser.rs: parse", "src/parser.rs: graf", "src/parser.rs: glyphs", "src/parser.rs: make_glyph_replacers"])
p("quotes that stand alone or around a quotation",
  "In every text, the step for quoted quotes finds exactly these: a blank, an opening character, a quotation (a double quote; or nothing; or a double quote and other characters, as many as possible), any character but a newline, a blank. If the last character is the counterpart of the opening one, the whole is put on the shelf under the next number, with the quotation set by the typographic step of C88, and a token takes its place; otherwise it is left alone. Everything else is left alone; the step never fails.",
  "every text, every state, every setting whose token prefix is of the kind the library makes", "all texts and states", ["src/parser.rs: glyph_quoted_quote", "src/parser.rs: matching_quote", "src/parser.rs: shelve"])
p("the definitions of aliases",
  "In every text, the step for aliases finds exactly these: at the start or after a blank, an alias in square brackets within one line, as long as possible, then an address up to the next blank or the end, that starts with a slash, with the last of the schemes, a colon and two slashes, or with the name of another scheme, and more characters. They are left out of the text and remembered in their order, later ones overriding earlier ones of the same alias; in restricted mode the escapes in the address are turned back first, and the step fails exactly if one of them is an escaped ampersand. Everything else is left alone.",
  "every text, every state, every setting", "all texts and states", ["src/parser.rs: get_refs", "src/parser.rs: unrestrict_url", "src/htmltools.rs: reverse_encode_html"])
p("line breaks in list items, definitions and cells",
  "Within list items, definitions and cells, a break tag is put before every newline, but not if a blank or a bar follows, nor after the end of an item, term or definition or a break tag, in either case of letters; everything else is kept.",
  "every text, every break tag, every state", "all texts and states", ["src/parser.rs: do_tag_br (insert_brs, eq_ignore_ascii_case)"])
p("lists of terms and their meanings",
  "A list of terms and meanings, none of them blank, becomes one dl element that is closed once, with one dt for each term and one dd for each meaning, in their order; the state stays.",
  "every setting, every number, order and text of entries, every state", "all lists and states", ["src/parser.rs: textile_lists (f_textile_list, list_type)"])
p("captions of tables",
  "If the first row of a table is marked as a caption without attributes, the rest of its line, without white space around it, is the caption; what follows on further lines is a row, unless it is blank, in which case nothing else of the table changes.",
  "every setting, every caption without a newline, everything that may follow, every state", "all captions and rows", ["src/table.rs: CAPTION_RE, process_caption, process_table"])
p("groups of table rows",
  "A row that follows the line of a head, foot or body without attributes starts that group, whatever the row holds; the group before it, if there is one without attributes, is finished with all its rows in their order; nothing else of the table changes.",
  "every setting, every table so far, every group and row not starting with white space, every state", "all tables and rows", ["src/table.rs: GRPMATCH_RE, TableSection, process_table"])
if __name__ == "__main__":
    out = os.path.join(os.path.dirname(__file__), "..", "properties.jsonl")
    with open(out, "w") as f:
        for x in P:
            f.write(json.dumps(x, ensure_ascii=False) + "\n")
    print(len(P))
