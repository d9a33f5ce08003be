{"id": "C01", "title": "parse never panics", "statement": "Textile::parse returns a String for every input; no input makes it panic.", "quantifier": "every input text (any Unicode), every configuration built with the public setters", "why_tests_cant": "A panic hides at one crafted input; tests sample a few hundred texts.", "anchors": ["src/parser.rs: Textile::parse", "src/htmltools.rs: reverse_encode_html", "src/block.rs: BlockAttributes::parse", "src/parser.rs: do_tag_br/insert_brs"]}
{"id": "C02", "title": "parse terminates", "statement": "Textile::parse finishes on every input.", "quantifier": "every input text, every configuration", "why_tests_cant": "Non-termination cannot be observed by a finite test, and the looping inputs are rare shapes.", "anchors": ["src/parser.rs: mark_start_of_links", "src/parser.rs: retrieve", "src/parser.rs: replace_links"]}
{"id": "C03", "title": "blank documents are returned unchanged", "statement": "If the text has only whitespace, parse returns it byte for byte; it is the only case in which the pipeline is skipped.", "quantifier": "every whitespace-only text over all Unicode White_Space characters, every configuration", "why_tests_cant": "infinitely many blank texts", "anchors": ["src/parser.rs: Textile::parse"]}
{"id": "C04", "title": "output never ends with a newline", "statement": "For a non-blank text the returned HTML does not end in a newline.", "quantifier": "every input text, every configuration", "why_tests_cant": "must hold whatever the pipeline produced", "anchors": ["src/parser.rs: Textile::parse"]}
{"id": "C05", "title": "every break tag is followed by a newline", "statement": "Every <br> or <br /> in the returned HTML is immediately followed by a newline, or by nothing but newline-trimmed end of output.", "quantifier": "every input text, every configuration", "why_tests_cant": "must hold whatever the pipeline produced", "anchors": ["src/parser.rs: Textile::parse BR_PATTERN"]}
{"id": "C06", "title": "parse is history independent", "statement": "The HTML returned by parse depends only on the current settings and the text, not on which documents the same Textile value parsed before nor on when the setters were called.", "quantifier": "every sequence of setter and parse calls on one Textile value", "why_tests_cant": "needs all histories; the tests parse with fresh or identically configured parsers", "anchors": ["src/parser.rs: Textile::regex_cache, set_uid, retrieve_tags, retrieve_urls, replace_links, do_tag_br"]}
{"id": "C07", "title": "the shared pattern cache is never borrowed twice", "statement": "No parse call fails because the interior-mutable pattern cache of the Textile value is borrowed while already borrowed.", "quantifier": "every input and configuration, every nesting of links, images, spans, lists and tables", "why_tests_cant": "depends on the call nesting any input can provoke", "anchors": ["src/parser.rs: regex_cache.borrow_mut"]}
{"id": "C08", "title": "setters are independent", "statement": "Each set_* method changes exactly its own setting; the last call wins; calls to different setters commute.", "quantifier": "every sequence of setter calls and every value", "why_tests_cant": "quantifies over all call sequences", "anchors": ["src/parser.rs: impl Textile"]}
{"id": "C09", "title": "the align-class setting can be used", "statement": "set_align_class makes a parser which aligns images with a class (true) or with the align attribute (false).", "quantifier": "every sequence of public builder calls", "why_tests_cant": "a reachability statement over all call sequences", "anchors": ["src/parser.rs: Textile::set_align_class"]}
{"id": "C10", "title": "the raw-blocks setting has its documented effect", "statement": "With raw blocks enabled, a paragraph wrapped in an unknown tag is left as is; with it disabled it is parsed.", "quantifier": "every text and both values of the setting", "why_tests_cant": "an effect that is absent for all texts cannot be shown by examples", "anchors": ["src/parser.rs: Textile::set_raw_blocks"]}
{"id": "C11", "title": "escaping leaves no markup characters", "statement": "Escaped text (restricted input, code, pre, URLs) contains no '<' or '>', no quote when quotes are escaped, and every '&' in it starts one of the emitted entities.", "quantifier": "every text, every combination of escaping options", "why_tests_cant": "all texts", "anchors": ["src/htmltools.rs: encode_html"]}
{"id": "C12", "title": "escaping loses nothing", "statement": "Decoding the entities of an escaped text gives back the text; different texts have different escaped forms.", "quantifier": "every text, every combination of escaping options", "why_tests_cant": "round trip over all strings", "anchors": ["src/htmltools.rs: encode_html, unescape"]}
{"id": "C13", "title": "un-escaping a restricted URL gives back the URL", "statement": "In restricted mode a URL, escaped with the rest of the document, is restored to what the author typed before it is normalised.", "quantifier": "every URL text", "why_tests_cant": "round trip over all strings", "anchors": ["src/htmltools.rs: reverse_encode_html", "src/parser.rs: unrestrict_url"]}
{"id": "C14", "title": "attribute values cannot leave their quotes", "statement": "A quoted attribute value starts and ends with the same quote character, which does not occur inside, and contains no '<' or '>'.", "quantifier": "every attribute value", "why_tests_cant": "all strings", "anchors": ["src/htmltools.rs: quoteattr"]}
{"id": "C15", "title": "attribute values keep their meaning", "statement": "The value an HTML reader decodes from a quoted attribute is the value that was put in.", "quantifier": "every attribute value", "why_tests_cant": "round trip over all strings", "anchors": ["src/htmltools.rs: quoteattr, encode_html"]}
{"id": "C16", "title": "attribute lists are sorted, unique, last write wins", "statement": "Attributes of a generated tag are in strictly increasing name order; setting one again replaces its value and no other.", "quantifier": "every sequence of insertions, class additions included", "why_tests_cant": "invariant over all operation sequences", "anchors": ["src/block.rs: BlockHtmlAttributes"]}
{"id": "C17", "title": "attribute names that are not valid are dropped", "statement": "A generated tag contains exactly the attributes whose names have only valid characters, in order.", "quantifier": "every attribute list", "why_tests_cant": "all attribute lists", "anchors": ["src/htmltools.rs: join_html_attributes, generate_tag"]}
{"id": "C18", "title": "restricted mode ignores document chosen class, id and style", "statement": "In restricted mode no attribute specification yields a class or id, and the style consists only of the parser's own alignment and padding declarations.", "quantifier": "every attribute specification string, every element kind", "why_tests_cant": "all strings", "anchors": ["src/block.rs: BlockAttributes::parse"]}
{"id": "C19", "title": "class, id, span and width values are of their lexical form", "statement": "In any mode a class has only characters of [-a-zA-Z 0-9_./[]], an id only [-a-zA-Z0-9_.:], and colspan/rowspan/span/width are digit strings.", "quantifier": "every attribute specification string", "why_tests_cant": "all strings", "anchors": ["src/block.rs: BlockAttributes::parse"]}
{"id": "C20", "title": "restricted mode lets no raw HTML through", "statement": "In restricted mode every '<' of the output starts one of the tags the parser itself generates.", "quantifier": "every input text", "why_tests_cant": "a safety claim against all inputs", "anchors": ["src/parser.rs: Textile::parse, replace_links, glyphs"]}
{"id": "C21", "title": "only whitelisted URL schemes become links", "statement": "The href of every generated link and the src of every image is relative or has a scheme of the mode's whitelist.", "quantifier": "every input text, both modes", "why_tests_cant": "a safety claim against all inputs", "anchors": ["src/parser.rs: replace_links, image, is_valid_url, get_refs"]}
{"id": "C22", "title": "document text cannot inject attributes", "statement": "In restricted mode a document cannot make a generated tag carry an attribute which the parser did not generate (such as an event handler).", "quantifier": "every input text", "why_tests_cant": "a safety claim against all inputs", "anchors": ["src/parser.rs: replace_links, span, table, textile_lists, retrieve"]}
{"id": "C23", "title": "rel is forced on all links", "statement": "With set_rel(Some(v)) every generated <a> for a link in the document carries rel with value v.", "quantifier": "every input text and every v", "why_tests_cant": "all inputs", "anchors": ["src/parser.rs: replace_links, image"]}
{"id": "C24", "title": "trailing punctuation of a URL is handed back to the text", "statement": "When a link's URL is cut, the kept URL followed by the text handed back is the original URL, except for unbalanced closing square brackets, which are dropped; the kept URL does not end in '!?:;.,'.", "quantifier": "every URL text", "why_tests_cant": "all strings", "anchors": ["src/parser.rs: replace_links (URL loop)"]}
{"id": "C25", "title": "balanced brackets stay in the URL", "statement": "A closing parenthesis at the end of the URL is kept when the parentheses of the URL are balanced and handed back otherwise; a closing square bracket likewise kept or dropped.", "quantifier": "every URL text", "why_tests_cant": "all strings", "anchors": ["src/parser.rs: replace_links", "src/charcounter.rs"]}
{"id": "C26", "title": "marking link starts changes nothing else", "statement": "Before links are recognised their starts are marked; removing the marks gives back the text.", "quantifier": "every text", "why_tests_cant": "all strings", "anchors": ["src/parser.rs: mark_start_of_links"]}
{"id": "C27", "title": "link recognition terminates", "statement": "The loop that rewrites marked links ends: with enough steps it does not run out of them, and more steps change nothing.", "quantifier": "every marked text", "why_tests_cant": "termination", "anchors": ["src/parser.rs: replace_links"]}
{"id": "C28", "title": "footnote references and ids", "statement": "All references to one footnote number use one id, different numbers have different ids, and an id attribute is emitted only for the first reference.", "quantifier": "every sequence of footnote references and other id allocations in a document", "why_tests_cant": "invariant over all histories", "anchors": ["src/parser.rs: footnote_ref, increment_link_index"]}
{"id": "C29", "title": "a footnote definition and its references agree", "statement": "The anchor of footnote n is the target of the references [n], wherever the definition stands.", "quantifier": "every document with references and definitions in any order", "why_tests_cant": "all orders", "anchors": ["src/block.rs: Block::new", "src/parser.rs: footnote_ref"]}
{"id": "C30", "title": "notes are numbered by first reference", "statement": "Note references are numbered 1, 2, 3, … in the order in which their labels are first referenced; later references repeat the number; every reference has its own anchor.", "quantifier": "every sequence of note references", "why_tests_cant": "invariant over all histories", "anchors": ["src/parser.rs: note_ref"]}
{"id": "C31", "title": "the note list is in numeric order", "statement": "A note list shows the referenced notes in the order of their numbers.", "quantifier": "every number of notes", "why_tests_cant": "unbounded number of notes", "anchors": ["src/parser.rs: place_note_lists"]}
{"id": "C32", "title": "a note definition is kept wherever it stands", "statement": "A defined and referenced note is shown with its text in the note list, whether the definition precedes or follows the reference.", "quantifier": "every order of definitions and references", "why_tests_cant": "all orders", "anchors": ["src/parser.rs: parse_note_defs, note_ref, place_note_lists"]}
{"id": "C33", "title": "every note reference links to its note", "statement": "The href of each note reference is the anchor id of the note.", "quantifier": "every sequence of references", "why_tests_cant": "all histories", "anchors": ["src/parser.rs: note_ref"]}
{"id": "C34", "title": "a repeated note list is repeated", "statement": "Two note lists with the same options show the same items.", "quantifier": "every document with two equal note list markers", "why_tests_cant": "all histories", "anchors": ["src/parser.rs: place_note_lists (notelist_cache)"]}
{"id": "C35", "title": "stored fragments are restored", "statement": "Every fragment put aside during parsing is put back exactly where its placeholder stands, nested ones included; no placeholder of a stored fragment is left, and the restoration ends.", "quantifier": "every store whose fragments mention only placeholders of earlier fragments, every text", "why_tests_cant": "unbounded nesting", "anchors": ["src/parser.rs: shelve, retrieve"]}
{"id": "C36", "title": "placeholders are never reused", "statement": "Each fragment, URL or tag put aside gets a placeholder number that no other one has in the same parse.", "quantifier": "every sequence of store operations", "why_tests_cant": "all histories", "anchors": ["src/parser.rs: shelve, shelve_url, store_tags"]}
{"id": "C37", "title": "a document cannot forge placeholders", "statement": "After the parser has removed its own token prefix from the input, the prefix does not occur in the text.", "quantifier": "every input text and uid", "why_tests_cant": "all strings", "anchors": ["src/parser.rs: Textile::parse (uid removal)"]}
{"id": "C38", "title": "no placeholder leaks into the output", "statement": "The returned HTML does not contain the parser's internal token prefix (unless an id needs it).", "quantifier": "every input text", "why_tests_cant": "all inputs", "anchors": ["src/parser.rs: mark_start_of_links, replace_links"]}
{"id": "C39", "title": "line ending style does not matter", "statement": "A document with CRLF or CR line endings gives the same HTML as with LF; leading and trailing newlines are ignored; lines of blanks and tabs are the same as empty lines.", "quantifier": "every text", "why_tests_cant": "all texts", "anchors": ["src/parser.rs: normalize_newlines"]}
{"id": "C40", "title": "list markup is balanced", "statement": "The HTML of a list has matching opening and closing ul/ol/dl and li/dt/dd tags.", "quantifier": "every list of items of every marker sequence", "why_tests_cant": "unbounded nesting", "anchors": ["src/parser.rs: textile_lists"]}
{"id": "C41", "title": "ordered list numbering", "statement": "An ordered list starts at 1, at the given number, or (with '_') continues after the last item of the previous list with the same marker; the start attribute says so.", "quantifier": "every sequence of list items", "why_tests_cant": "all histories", "anchors": ["src/parser.rs: textile_lists (ol_starts)"]}
{"id": "C42", "title": "text around a table is kept", "statement": "Text standing in the same block before a table is not lost.", "quantifier": "every block with a table", "why_tests_cant": "all texts", "anchors": ["src/parser.rs: table"]}
{"id": "C43", "title": "table shape", "statement": "Every row of the source yields one tr, with one cell per '|' separated part, th exactly for cells marked '_'.", "quantifier": "every table", "why_tests_cant": "unbounded tables", "anchors": ["src/table.rs: process_table"]}
{"id": "C44", "title": "span nesting is bounded", "statement": "Inline spans nest at most max_span_depth (5) deep; the depth counter is restored after every call.", "quantifier": "every text", "why_tests_cant": "unbounded nesting", "anchors": ["src/parser.rs: span"]}
{"id": "C45", "title": "lite mode allows only paragraphs and blockquotes", "statement": "With set_lite(true) no heading, list, table, preformatted or code block is produced from Textile block markup.", "quantifier": "every input text", "why_tests_cant": "all inputs", "anchors": ["src/parser.rs: block, BLOCK_TAGS_LITE_RE_S"]}
{"id": "C46", "title": "disabled images are not produced", "statement": "With set_images(false) the document's image markup yields no img tag and no image URL is stored.", "quantifier": "every input text", "why_tests_cant": "all inputs", "anchors": ["src/parser.rs: graf, replace_links"]}
{"id": "C47", "title": "no network access unless requested", "statement": "parse makes no HTTP request unless set_getting_image_size(true); with it only absolute image URLs of a whitelisted scheme are requested.", "quantifier": "every input text and configuration", "why_tests_cant": "an effect absent on all inputs", "anchors": ["src/parser.rs: image, get_image_size"]}
{"id": "C48", "title": "image probing reads at most 1 KiB", "statement": "Determining an image's size reads at most 1024 bytes, never indexes outside the buffer and ends after finitely many reads.", "quantifier": "every sequence of read results", "why_tests_cant": "all schedules of a network peer", "anchors": ["src/parser.rs: get_image_size"]}
{"id": "C49", "title": "plain paragraphs", "statement": "A document of plain paragraphs separated by blank lines becomes the same paragraphs, each in <p>…</p>, in order, text unchanged.", "quantifier": "every list of plain paragraphs (words of letters and single spaces), any length", "why_tests_cant": "unbounded documents", "anchors": ["src/parser.rs: parse, block, graf", "src/block.rs: Block::new"]}
{"id": "C50", "title": "headings", "statement": "'hN. text' becomes <hN>text</hN> for plain text.", "quantifier": "every N in 1..6 and every plain text", "why_tests_cant": "unbounded texts", "anchors": ["src/parser.rs: block", "src/block.rs: Block::new"]}
{"id": "C51", "title": "code blocks show their content verbatim", "statement": "'bc. c' and 'pre. c' show exactly the characters of c, escaped; no markup inside c is interpreted.", "quantifier": "every content c without a blank line, every token uid of hex digits", "why_tests_cant": "all contents", "anchors": ["src/block.rs: Block::new", "src/parser.rs: shelve, retrieve"]}
{"id": "C52", "title": "notextile blocks are verbatim", "statement": "'notextile. c' emits c unchanged.", "quantifier": "every content c without a blank line", "why_tests_cant": "all contents", "anchors": ["src/block.rs: Block::new"]}
{"id": "C53", "title": "inline spans", "statement": "'*w*', '_w_', … become the tag of the marker around w.", "quantifier": "every plain w, all ten markers", "why_tests_cant": "unbounded texts", "anchors": ["src/parser.rs: span, store_tags, retrieve_tags"]}
{"id": "C54", "title": "splitting a text by a pattern loses nothing", "statement": "The pieces obtained by splitting a text at the matches of a pattern, with the matches put back, are the text.", "quantifier": "every pattern and every text", "why_tests_cant": "all patterns and texts", "anchors": ["src/regextra.rs: ReSplitWithCapture"]}
{"id": "C55", "title": "pattern substitution touches only the matches", "statement": "Substituting the matches of a pattern keeps every character outside of the matches, in order; a text without match is unchanged.", "quantifier": "every pattern, text and replacement function", "why_tests_cant": "all patterns and texts", "anchors": ["src/regextra.rs: multi_replace, multi_replace_with_one"]}
{"id": "C56", "title": "character counters", "statement": "A counter is independent of the others, never goes below zero, and is refused for a character it was not created for or before it is set.", "quantifier": "every counter state and operation sequence", "why_tests_cant": "all histories", "anchors": ["src/charcounter.rs"]}
{"id": "C57", "title": "numeric character references decode safely", "statement": "Decoding '&#n;' yields the code point n, its Windows-1252 replacement, U+FFFD for surrogates and out-of-range numbers, or nothing for invalid code points; it panics only when n exceeds 32 bits.", "quantifier": "every n", "why_tests_cant": "2^32 values and beyond", "anchors": ["src/htmltools.rs: replace_charref"]}
{"id": "C58", "title": "back references to notes use successive symbols", "statement": "The back links of a note use successive characters from the requested start, one per reference, in order; one of the special note symbols is repeated instead. Notes of kind '!' have no back links, those of kind '^' only the first.", "quantifier": "every number of references and every start character", "why_tests_cant": "unbounded", "anchors": ["src/parser.rs: make_back_ref_link"]}
{"id": "C59", "title": "glyph substitution leaves no straight quotes in text", "statement": "In text outside of tags every straight single or double quote is replaced by an entity.", "quantifier": "every text chunk", "why_tests_cant": "all texts", "anchors": ["src/parser.rs: make_glyph_replacers, glyphs"]}
{"id": "C60", "title": "URL aliases", "statement": "A link whose URL is an alias defined in the document is emitted with the alias's URL; the last definition of an alias wins.", "quantifier": "every set of alias definitions", "why_tests_cant": "all histories", "anchors": ["src/parser.rs: get_refs, retrieve_urls"]}
{"id": "C61", "title": "percent-encoding of invalid URLs makes them inert", "statement": "A URL the URL library rejects even as a relative reference is emitted with every byte other than ASCII letters and digits percent-encoded, so it has no scheme.", "quantifier": "every URL text", "why_tests_cant": "all strings", "anchors": ["src/urlutils.rs: UrlBits::parse"]}
{"id": "C62", "title": "the result does not depend on the number of steps allowed to the loops", "statement": "The loops of the parser (link marking, link rewriting, restoration, nested text) are modelled with a bound on their steps. A call that returns under some bound returns the same under every larger one.", "quantifier": "every document, settings and pair of bounds", "why_tests_cant": "all bounds", "anchors": ["src/parser.rs: mark_start_of_links, replace_links, retrieve, graf"]}
{"id": "C63", "title": "blocks with a signature and the blocks that continue them", "statement": "A block introduced by a signature (p, h1 to h6, bq, bc, pre, notextile) with optional attributes (paddings, alignments, class and identifier, style declarations, language) is wrapped in the elements of its signature, which carry exactly the attributes written there (the language of code becomes a class of the code element, if it is a name; in restricted mode classes, identifiers and declarations are dropped). With two dots the following blocks up to the next signature belong to it: they share its outer element and each gets the inner one. Nothing of the text is lost.", "quantifier": "every sequence of such blocks, every list of attributes in a recognised order, every setting; plain words in paragraphs, headings and quotations, any text without blank lines in code, preformatted and raw blocks", "why_tests_cant": "unbounded sequences of blocks and texts", "anchors": ["src/parser.rs: block", "src/block.rs: Block::new"]}
{"id": "C64", "title": "comments leave no trace", "statement": "A comment of one block leaves no trace: with it and without it parse gives the same result and the same state, whatever the other blocks are (lists, tables, links, raw HTML, also those on which parse panics), unless the block after the comment would belong to an extended part that the comment ends.", "quantifier": "every document of blocks with a comment between them", "why_tests_cant": "unbounded documents", "anchors": ["src/parser.rs: block", "src/block.rs: Block::new"]}
{"id": "C65", "title": "inline code and untouched fragments are reproduced", "statement": "A fragment written between '@' signs is shown in a code element with exactly its characters, '&', '<' and '>' escaped (once more than the input already is in restricted mode); a fragment written between '==' is shown exactly as it is. The inline markup inside of either is not interpreted, and the text around them is kept.", "quantifier": "every document of paragraphs of plain words with any number of such fragments; a fragment is any non-empty line without its own closing mark, the tags <notextile> and <code>, '==' in code, line break tags in untouched fragments, and the tokens of the instance", "why_tests_cant": "unbounded documents and fragments", "anchors": ["src/parser.rs: no_textile, code, do_special, shelve, retrieve"]}
{"id": "C66", "title": "attribute specifications mean what they say", "statement": "A specification of attributes made of style declarations, a language, a class and identifier, paddings, a horizontal and (cells and rows) vertical alignment and (cells) spans, the mark of a heading and a final stop, in any order and at most one of each, yields exactly the attributes these stand for, in alphabetical order: the declarations trimmed and joined, followed by those of paddings and alignment; in restricted mode without classes, identifiers and declarations.", "quantifier": "every such specification in every order, every element other than col, restricted or not", "why_tests_cant": "unbounded orders and texts", "anchors": ["src/block.rs: BlockAttributes::parse, html_attrs"]}
{"id": "C67", "title": "links", "statement": "A link, a text in double quotes followed by a colon and an address, becomes an a element around the text, whose href is the address: as the URL library prints it if it is absolute with an accepted scheme, unchanged if it is relative; escaped; followed by the configured rel. Punctuation after the address is text again. The text around the links is kept.", "quantifier": "every document of paragraphs of plain words with any number of links, every restricted or unrestricted, lite or full settings; addresses of letters, digits and the usual signs", "why_tests_cant": "unbounded documents and addresses", "anchors": ["src/parser.rs: links, mark_start_of_links, replace_links, f_link, shelve_url, shelve, retrieve, retrieve_urls"]}
{"id": "C68", "title": "images", "statement": "An image, an address between exclamation marks with an optional side before and an optional text in parentheses after the address, becomes an img element with the address as src, the text as alt and title (alt is empty without a text), and the side as a class or as align; an address after it, with any scheme, makes it the content of an a element. Addresses are printed as in links. The text around the images is kept.", "quantifier": "every document of paragraphs of plain words with any number of images, every restricted or unrestricted, lite or full settings without image sizes; addresses of letters, digits and the usual signs", "why_tests_cant": "unbounded documents and addresses", "anchors": ["src/parser.rs: image, shelve_url, shelve, retrieve, retrieve_urls"]}
{"id": "C69", "title": "break tags are spelled in one way", "statement": "In what a block adds to the page every break tag, however the author spelled it (case, white space, slash), is spelled as the kind of document requires; texts that are set aside are put back later, as they are.", "quantifier": "every block, state and setting", "why_tests_cant": "all texts", "anchors": ["src/parser.rs: block, do_p_br"]}
{"id": "C70", "title": "typographic symbols", "statement": "Symbols between words become the characters they stand for: 2x3 a multiplication sign, apostrophes, '89, single and double quotation marks around a word, three dots after a word, dashes, (tm), (r), (c), fractions, degree and plus-minus; an ampersand, alone or inside of a word, is escaped. The words around them are kept.", "quantifier": "every document of paragraphs of plain words with any number of such symbols between blanks, every setting with block tags and without a sanitizer", "why_tests_cant": "unbounded documents", "anchors": ["src/parser.rs: glyphs, make_glyph_replacers"]}
{"id": "C71", "title": "order of the rows of a table", "statement": "The rows of a table stand in the HTML in the order in which they stand in the source.", "quantifier": "every table", "why_tests_cant": "unbounded tables", "anchors": ["src/table.rs: process_table"]}
{"id": "C72", "title": "marks of cells take effect", "statement": "Every mark of a cell takes effect: heading, number of columns and rows it spans, vertical and horizontal alignment.", "quantifier": "every cell of every table", "why_tests_cant": "unbounded tables", "anchors": ["src/table.rs: process_table", "src/block.rs: BlockAttributes::parse"]}
{"id": "C73", "title": "definition lists", "statement": "A block of lines '- term := definition' becomes a dl element with, for each line in turn, a dt element of exactly the term and, when the line has a definition, a dd element of exactly the definition; lists and paragraphs around it, and the numbers of ordered lists that go on after it, are not affected.", "quantifier": "every document of definition lists (any number of lines, one with a definition at least), bullet and ordered lists of any depth, and paragraphs of one line, all of plain words; every setting with block tags, without lite mode and sanitizer", "why_tests_cant": "unbounded documents", "anchors": ["src/parser.rs: redcloth_list", "src/parser.rs: textile_lists", "src/parser.rs: graf"]}
{"id": "C74", "title": "the words of definition lists are kept", "statement": "Every term of a definition list is the content of a dt element, and every definition that of a dd element.", "quantifier": "every definition list", "why_tests_cant": "unbounded documents", "anchors": ["src/parser.rs: redcloth_list"]}
{"id": "C75", "title": "footnotes", "statement": "A reference '[n]' after a word becomes a sup element with a link to the footnote, '[n!]' one without a link; the first reference to a number has an identifier that links back can name. A block 'fnN. text' becomes a paragraph of class footnote that starts with the number and bears the identifier to which the references with this number link; 'fnN^. text' has a link back to the first reference. Identifiers are the configured prefix and numbers counted through. The words around references, and those of the footnotes, are kept.", "quantifier": "every document of lines of plain words with any number of references, and of footnotes, in any order; every setting with block tags, without lite mode and sanitizer, whose prefix is made of letters, digits and hyphens", "why_tests_cant": "unbounded documents", "anchors": ["src/parser.rs: footnote_ref", "src/parser.rs: graf", "src/block.rs: Block::new"]}
{"id": "C76", "title": "references lead to their footnotes", "statement": "The link of a reference and the footnote of its number have the same identifier, and no two footnotes have the same one.", "quantifier": "every document with references and footnotes", "why_tests_cant": "unbounded documents", "anchors": ["src/parser.rs: footnote_ref", "src/block.rs: Block::new"]}
{"id": "C77", "title": "fragments between marks are found and set aside", "statement": "Each step that looks for fragments between two marks (notextile tags and ==, code tags and @, pre tags, comments) finds exactly the fragments that start at the start of a line, after a white space or an opening bracket, '>' or '|', and end at the first closing mark; it stores exactly the content (code and preformatted text escaped) under the next number, leaves its placeholder, drops square brackets around a fragment and keeps all the rest of the text.", "quantifier": "every text and every state of the parser", "why_tests_cant": "all texts", "anchors": ["src/parser.rs: do_special, get_special_options, f_textile, no_textile, code, get_html_comments"]}
{"id": "C78", "title": "the text around comments is kept", "statement": "With the comments back in their places, the step for HTML comments changes nothing in the text.", "quantifier": "every text and every state", "why_tests_cant": "all texts", "anchors": ["src/parser.rs: get_html_comments"]}
{"id": "C79", "title": "documents of blocks of all kinds", "statement": "In a document that mixes paragraphs, headings, quotations, preformatted text, code and comments with attributes, alone or going on over further blocks, with lists, tables and definition lists, every block is shown as its own kind demands, in the order of the source, with blank lines between; the numbers of ordered lists that go on are those after the last list before, whatever stands between.", "quantifier": "every sequence of such blocks of plain words (any length, any nesting of lists, any size of tables), every setting with block tags, without lite mode and sanitizer; only a block with a signature follows a part that goes on", "why_tests_cant": "unbounded documents", "anchors": ["src/parser.rs: block, graf, textile_lists, redcloth_list, table", "src/block.rs: Block::new"]}
{"id": "C80", "title": "blocks do not affect each other", "statement": "The HTML of a document is that of its blocks, each parsed on its own, put one below the other.", "quantifier": "every document", "why_tests_cant": "unbounded documents", "anchors": ["src/parser.rs: block, parse"]}
{"id": "C81", "title": "the HTML is well formed", "statement": "The HTML consists of text without angle brackets, break tags, and elements of the parser's own names that are closed in the order they were opened; attributes have known names and values without quotes or angle brackets.", "quantifier": "every document without raw HTML", "why_tests_cant": "unbounded documents", "anchors": ["src/parser.rs: parse, block, textile_lists", "src/html.rs: generate_tag"]}
{"id": "C82", "title": "columns of tables", "statement": "A line '|:' of column descriptions becomes one colgroup element with an element for every description, with the span and the width that were asked for; what stands after the line is read as the next row, and the other parts of the table stay as they are.", "quantifier": "every list of descriptions (any length, any numbers), any table around it, every setting and state", "why_tests_cant": "unbounded lists of descriptions", "anchors": ["src/table.rs: process_table", "src/block.rs: BlockAttributes::parse"]}
{"id": "C83", "title": "references of footnotes in any text", "statement": "The step that looks for references finds exactly the brackets around digits (with an exclamation mark or not) that follow a character other than a white space, replaces each by its mark, takes a new identifier for each new number, and keeps all the rest of the text and of the state.", "quantifier": "every text, every state, every setting whose prefix is made of letters, digits and hyphens", "why_tests_cant": "all texts", "anchors": ["src/parser.rs: footnote_ref"]}
{"id": "C84", "title": "division into blocks", "statement": "A text is divided into blocks at, and only at, the runs of two or more newlines, each run taken as a whole; nothing is lost; there is only one such division.", "quantifier": "every text", "why_tests_cant": "all texts", "anchors": ["src/parser.rs: block", "src/regextra.rs"]}
{"id": "C85", "title": "the sanitizer comes last", "statement": "The sanitizer is given the whole HTML, once, and has no influence on anything else: the text it gets is the same whatever it does. What it returns is the result, but for break tags without a newline after them, which are written anew with one, and newlines at the end, which are dropped.", "quantifier": "every document that is not blank, every setting, every sanitizer (any function from texts to texts)", "why_tests_cant": "all texts and all functions", "anchors": ["src/parser.rs: parse", "src/parser.rs: set_sanitize, adjust_sanitizer"]}
{"id": "C86", "title": "line breaks in paragraphs and headings", "statement": "The step that breaks lines works between a tag <p…> or <h1…> to <h6…> and the last end tag of that name: there every newline becomes a break tag, except before a white space or a bar, and a break tag written out before such a newline is not doubled. Everything else is kept, the state too, and the step never fails.", "quantifier": "every text, every state, every setting", "why_tests_cant": "all texts", "anchors": ["src/parser.rs: do_p_br"]}
{"id": "C87", "title": "the typographic replacements on every text", "statement": "The table of 22 typographic replacements does, on every text, what 22 rules tell, one after the other, each from left to right: a mark (quotes, dashes, three points, an ampersand between blanks, (c), (r), (tm), fractions, degree, plus-minus) becomes a symbol if what must stand before and after it does; an x between numbers becomes a times sign, an apostrophe before a year a closing quote, and capitals with words in brackets an abbreviation. No straight apostrophe is left.", "quantifier": "every text, both kinds of HTML", "why_tests_cant": "all texts", "anchors": ["src/parser.rs: make_glyph_replacers", "src/regextra.rs: multi_replace"]}
{"id": "C88", "title": "the typography of a whole text", "statement": "Of every text, the typographic step keeps the tags and sets the texts between them: outside restricted mode '<', '>' and every '&' that begins no character reference are escaped, then the 22 rules of C87 are applied, then the capitals of words with three capitals or more are marked with a token. Newlines at the end are dropped. The step never fails and leaves the state alone.", "quantifier": "every text, every state, every setting whose token prefix is of the kind the library makes", "why_tests_cant": "all texts", "anchors": ["src/parser.rs: glyphs", "src/parser.rs: make_glyph_replacers", "src/regextra.rs: split_with_capture", "src/regextra.rs: multi_replace"]}
{"id": "C89", "title": "documents of prose", "statement": "A document of paragraphs of prose becomes these paragraphs, each in its own p element, with its line breaks, and with its text set exactly as the typographic rules of C87 and C88 tell. Prose is words of letters, digits, hyphens and any of ,;./'\"&#$)]}\\` in any order, with single blanks and newlines between, dashes between blanks, '?' and '!' at the end of words; no three capitals in a row; a paragraph starts with an ASCII capital, a digit or a quote, and a quote after a blank is followed by a letter or a digit and one more character.", "quantifier": "any number of such paragraphs, every setting whose token prefix is of the kind the library makes, with block tags and without a sanitizer, restricted mode or not, both kinds of HTML", "why_tests_cant": "all documents of this kind, with quotes and other marks in any combination", "anchors": ["src/parser.rs: parse", "src/parser.rs: graf", "src/parser.rs: glyphs", "src/parser.rs: make_glyph_replacers"]}
{"id": "C90", "title": "quotes that stand alone or around a quotation", "statement": "In every text, the step for quoted quotes finds exactly these: a blank, an opening character, a quotation (a double quote; or nothing; or a double quote and other characters, as many as possible), any character but a newline, a blank. If the last character is the counterpart of the opening one, the whole is put on the shelf under the next number, with the quotation set by the typographic step of C88, and a token takes its place; otherwise it is left alone. Everything else is left alone; the step never fails.", "quantifier": "every text, every state, every setting whose token prefix is of the kind the library makes", "why_tests_cant": "all texts and states", "anchors": ["src/parser.rs: glyph_quoted_quote", "src/parser.rs: matching_quote", "src/parser.rs: shelve"]}
{"id": "C91", "title": "the definitions of aliases", "statement": "In every text, the step for aliases finds exactly these: at the start or after a blank, an alias in square brackets within one line, as long as possible, then an address up to the next blank or the end, that starts with a slash, with the last of the schemes, a colon and two slashes, or with the name of another scheme, and more characters. They are left out of the text and remembered in their order, later ones overriding earlier ones of the same alias; in restricted mode the escapes in the address are turned back first, and the step fails exactly if one of them is an escaped ampersand. Everything else is left alone.", "quantifier": "every text, every state, every setting", "why_tests_cant": "all texts and states", "anchors": ["src/parser.rs: get_refs", "src/parser.rs: unrestrict_url", "src/htmltools.rs: reverse_encode_html"]}
{"id": "C92", "title": "line breaks in list items, definitions and cells", "statement": "Within list items, definitions and cells, a break tag is put before every newline, but not if a blank or a bar follows, nor after the end of an item, term or definition or a break tag, in either case of letters; everything else is kept.", "quantifier": "every text, every break tag, every state", "why_tests_cant": "all texts and states", "anchors": ["src/parser.rs: do_tag_br (insert_brs, eq_ignore_ascii_case)"]}
{"id": "C93", "title": "lists of terms and their meanings", "statement": "A list of terms and meanings, none of them blank, becomes one dl element that is closed once, with one dt for each term and one dd for each meaning, in their order; the state stays.", "quantifier": "every setting, every number, order and text of entries, every state", "why_tests_cant": "all lists and states", "anchors": ["src/parser.rs: textile_lists (f_textile_list, list_type)"]}
{"id": "C94", "title": "captions of tables", "statement": "If the first row of a table is marked as a caption without attributes, the rest of its line, without white space around it, is the caption; what follows on further lines is a row, unless it is blank, in which case nothing else of the table changes.", "quantifier": "every setting, every caption without a newline, everything that may follow, every state", "why_tests_cant": "all captions and rows", "anchors": ["src/table.rs: CAPTION_RE, process_caption, process_table"]}
{"id": "C95", "title": "groups of table rows", "statement": "A row that follows the line of a head, foot or body without attributes starts that group, whatever the row holds; the group before it, if there is one without attributes, is finished with all its rows in their order; nothing else of the table changes.", "quantifier": "every setting, every table so far, every group and row not starting with white space, every state", "why_tests_cant": "all tables and rows", "anchors": ["src/table.rs: GRPMATCH_RE, TableSection, process_table"]}
