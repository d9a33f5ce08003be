# Formal model of kpot/rustextile in Rocq (Coq 8.16.1)

## What is modelled

The model is an executable Gallina transcription of `Textile::parse`, of the
setters of `Textile`, and of every function they call in `/repo/src` (parser.rs,
block.rs, table.rs, htmltools.rs, regextra.rs, regex_snips.rs, charcounter.rs,
urlutils.rs, html.rs), one definition per Rust function, each with the file and
lines it comes from.

| file (rocq/theories) | contents |
|---|---|
| `Str.v` | strings as lists of code points, the parts of `std::str` used |
| `Unicode.v` (generated by tools/gen_unicode.pl) | code point sets of the character classes, lower-casing table |
| `Html5Table.v` (generated by tools/gen_html5.py) | the entity table of src/html.rs |
| `Regex.v` | regular expressions, backtracking matcher, `replace_all`, `captures`, iteration over matches, template expansion |
| `RegexParse.v`, `RegexSnips.v` | parser for the regex syntax, so that the model uses the regex source strings of the repository verbatim; these strings |
| `ModelBase.v` | settings, parser state, effects |
| `ModelHtml.v`, `ModelUrl.v`, `ModelAttrs.v`, `ModelInline.v`, `ModelParser.v` | the functions of the crate |
| `Spec*.v` | specification vocabulary: what texts are meant, what they should become |
| `Prop*.v` | the property theorems, each closed by `exact`, each followed by `Print Assumptions`, with examples |
| `Samples.v` | settings and a URL library for the examples |
| all others | proofs |

State and effects: `M A := pstate -> res A`, where `res` is `Ret a state`,
`Panic site` or `Diverge`.  `pstate` has every field of `ParserState`, the pattern
cache of the `Textile` value with its borrow flag, and the trace of HTTP
requests.  Every `panic!`, `unreachable!`, `expect`, out of bounds slice, missing
capture group, `RefCell` double borrow and integer overflow of the Rust code is a
`Panic` with its site.

Recursions without a structural bound take a number of steps (`fuel`); running
out of it is `Diverge`.  C62 proves that a call that returns under some bound
returns the same under every larger one, so the bound is no part of the meaning.
"For every fuel the result is `Diverge`" is non-termination.

The tests of the repository are not modelled.  As a check of the transcription the
model was extracted to OCaml (outside /verif) and run on the cases in
`/repo/tests`: 353 of 354 give the expected HTML.  The comparison ignores
indentation and line breaks, except for the XHTML cases.  In that run the URL
library and the image reader were hand-written stand-ins.  The remaining case
expects the size of an image fetched from the network.

## Trusted base

* Coq's kernel (8.16.1, with its virtual machine) and the standard library.  No
  axioms are declared, no check is switched off.
* `Print Assumptions` under every theorem: each of them prints "Closed under the
  global context", that is, no axioms.  (The gate lists seven axioms of
  `Coq.ssr.ssrunder`, a standard library file that is loaded along with
  `Coq.Lists.List`; no theorem uses them.)
* The transcription and the reading of Rust given here.

### Simplifications

* Strings are lists of code points.  Byte indices appear only where the code
  slices by bytes; there the UTF-8 lengths are computed.
* `fancy_regex` is a backtracking matcher with leftmost-first semantics.  Its
  backtrack limit (an error, which `replace_all` turns into a panic) is not
  modelled: the matcher explores without limit.  Case-insensitive matching covers
  ASCII letters, U+212A and U+017F.
* Character classes and lower-casing are those of perl 5.38 (Unicode 15).
  `str::to_lowercase` does not model the context rule for final sigma; only
  lengths depend on it.
* `u32` counters of stored fragments and URLs are unbounded numbers; theorems that
  need the difference have a bound such as `… <= u32_max` as a hypothesis.
* A panic ends the call; the state of the parser value after it is not modelled.
* `url::Url`, the HTTP request, the image header reader and the ammonia sanitizer
  are functions in a record (`world`, `t_sanitize`); every theorem quantifies over
  them.
* The instance id (`time_based_uid`) is a parameter.  Most document theorems ask
  that it consists of characters the code uses (`simple_uid`).
* Memory exhaustion and stack overflow are not modelled.
* Hash maps whose order matters to no result are association lists.

## Method

1. *Logics over the state* (`Logic.v`, `ProofWalk.v`): a property of single
   operations that is closed under bind, iteration and recursion holds of the
   whole parser.  Used for panics (C01), the pattern cache (C06), borrows (C07),
   notes (C28, C30), tokens (C36), span depth (C44), requests (C47, C48), steps
   (C62).
2. *Regular expressions* (`RegexTheory.v`, `RegexGroups.v`): relational semantics,
   soundness and completeness of the matcher; what groups can capture.
3. *Regular families of texts* (`RegexAuto.v`): families are automata over
   character classes; `never A r`, decided by computation and proved sound, says
   that the pattern `r` matches nowhere in any text of `A`.  The document theorems
   (C45, C49–C53, C63–C68, C70, lists, tables, spans) use it to show that no stage of
   the parser but the intended ones acts on a text.
4. *Symbolic matching* (`ProofTags.v`, `ProofWeave.v`, `ProofSpanRe.v`,
   `ProofImages.v`, …): exact results of a pattern at a known position.
5. *Documents* (`ProofDocument.v`, `ProofPages.v`, `ProofStockDoc.v`): a document is
   a list of blocks; what the inline phase makes of each block and stores is enough
   to know the whole result, placeholders restored.

Properties that are false of the code are stated in full and refuted with a
concrete witness (`…_refuted`), beside what is true instead (`partial` in the
manifest, with a note saying which).  The table of properties, statuses and
theorem names is `MANIFEST.json`.

Wrong programs: `tools/mutate.py` edits one definition of the model in a copy,
rebuilds, and lists the theorems whose proofs no longer check (`failed` in
`seeded/LOG.jsonl`).  This is more than the theorems that became false: an edit of
the structure of a definition also breaks proofs of statements that remain true.
So each edit is also tried on a concrete instance of the theorem it should break,
by computation (`tools/witness.py`); `witness` holds the instance that is true of
the model and false of the edited one, and is absent where none was computed.
Entries whose note says `not rebuilt` were tried only in this second way: their
`failed` is not the result of a rebuild but the theorem of the witness.

## Plan per property

| id | how |
|---|---|
| C01 | refuted with witnesses run through the whole model; the panic sites of all other runs are exactly these |
| C02 | refuted: for every fuel the link marking loop does not end on a witness; termination of the other loops |
| C03, C04, C05 | whole `parse`, from its first and last steps, for every oracle |
| C06 | whole `parse`: the result does not depend on the pattern cache as long as the cached patterns are those of the uid; refuted when `set_uid` follows a parse |
| C07 | invariant of all stages: the borrow flag is false whenever a stage that borrows starts |
| C08, C09, C10 | record of settings, sequences of setter calls |
| C11–C15 | `encode_html`, `quoteattr`, `reverse_encode_html`, with an independent entity decoder |
| C16, C17 | attribute vector as sorted map |
| C18, C19 | `BlockAttributes::parse` over all strings, by an analysis of the regular expressions |
| C20–C23 | refuted with witnesses; the parts that hold proved |
| C24, C25, C56 | URL trimming loop and counters |
| C26, C27 | link marking and replacement loops |
| C28–C34, C58 | foot notes and notes |
| C35–C38 | shelf and tokens |
| C39 | `normalize_newlines` and the whole `parse` |
| C40, C41 | `textile_lists` item fold; documents of lists |
| C73, C74 | `redcloth_list`; documents of definition lists |
| C77, C78 | `no_textile`, `code`, `get_html_comments` on every text and state |
| C79, C80, C81 | `parse` on sequences of signed blocks, paragraphs, lists, tables and definition lists |
| C82 | `row_colgroup`, `table_row`, `col_tags`, `block_attributes_parse` on columns |
| C83 | `footnote_ref` on every text |
| C84 | `splitM MULTI_ENDLINE_RE` in `block`, on every text |
| C85 | `parse` with any sanitizer, `finish` |
| C86 | `do_p_br` on every text |
| C87 | the 22 typographic replacements on every text, rule by rule |
| C88 | `glyphs` on every text: tags, escapes, the 22 rules, capitals |
| C89 | documents of prose: paragraphs set by the typographic rules |
| C90 | `glyph_quoted_quote` on every text and state |
| C91 | `get_refs`, `unrestrict_url` and `reverse_encode_html` on every text and state |
| C92 | `insert_brs` on every ASCII text; texts in which it loses or cuts characters |
| C93 | exact `list_lines` on every sequence of one-level terms and meanings; one that starts with a meaning and is left open |
| C94 | exact `row_caption` on every marked first row without attributes |
| C95 | exact `row_group` on every row after the line of a group without attributes |
| C75, C76 | `footnote_ref`, footnotes of `Block::new`; documents of lines with references and of footnotes |
| C42, C43, C71, C72 | `table`, `process_table`; documents with tables |
| C44 | `span`; documents of spans |
| C45, C46, C47, C48 | lite mode, images, network effects |
| C49–C53 | whole `parse` on families of documents with universally quantified content |
| C54, C55 | segments of a match iteration |
| C57 | `replace_charref` |
| C59 | `glyphs` |
| C60, C61 | URL aliases and percent-encoding |
| C62 | the step bound |
| C63, C64 | signed and extended blocks with attributes; comments between blocks of any kind |
| C65, C67, C68 | inline code, links, images in whole documents |
| C66 | attribute specifications |
| C69 | `block`: spelling of break tags |
| C70 | `glyphs` in whole documents: the text after each replacement is in a family of its own |

## Findings

Seen on the model; the Rust code was not run.  Those marked (*) are no theorem or
example, only observed on the extracted model.

* Panics: restricted `"a":http://x/?a=1&b=2` (unknown entity); `* привет\nмир`
  (slice inside a character); `p((-(. x` (unknown alignment);
  `#18446744073709551615 a` (overflow); `set_uid("(")` (bad pattern); a forged
  placeholder with a long number.
* Non-termination: `It is 5" by 6":x`; `==xtextileReftextileRef:abc::abc:1:shelve==`
  with the uid `abc`.
* Restricted mode lets through an image link `!a.png!:javascript:alert(1)`, and
  code in link titles and `"$":` links.
* Loss and repetition: `a " b":url` repeats text; `hello\n|a|b|` loses `hello`; a
  `>` at the end of a URL and bracketed text inside a query are lost.
* Notes: a definition before its first reference is lost, later references point
  to `#note`, a repeated list is empty, ten notes are sorted as text.
* Footnotes: `fn1.` before its first reference gets another identifier than the one
  the reference links to; two `fn1.` share one identifier; `Stop![1!]` is an image.
* A closing bracket right after an HTML comment is lost: `Foo (<!--a-->) bar`.
* Definition lists: in `- := words` the words are lost.
* Code blocks and inline code are escaped twice in restricted mode.
* Settings without effect: `set_raw_blocks`; `set_align_class` consumes the parser.
* `encode_html` exchanges the entities of CR and LF.
* `* a\n** b\n*# c` gives unbalanced tags.
* `|Hi!|Ho!|`: adjacent cells are taken for an image.  Lite mode: `*foo*.` at the
  end of the text is no span.  `###..` comments leave empty lines.
* Tables: rows before the first group (`|-.`) come out behind all groups; a first
  row beginning with a centered cell (`|=. a|b|`) becomes a caption; the vertical
  alignment of `|_^. a|` is lost; in restricted mode `|<. a|` is text.
* (*) Cells search span marks inside of styles and classes.
* `a[½]` is a reference of a footnote, but `fn½. b` is a paragraph.
* Lines: `<pre>…</pre>`, `<progress>` and other tags beginning with a p are taken for
  paragraphs if `</p>` stands behind them in the block, and get break tags.
* Typography: a tag ends at the first `>` of its line, also inside an attribute; the rest of the
  tag is then set as text (`C88_attribute`).
* Typography: of two apostrophes with one letter between, as in `Rock'n'roll`, the second becomes an
  opening quote, since the first takes the letter (`C89_rock`).
* Quoted quotes: a quotation reaches to the last blank before the next double quote, so it is set only
  if a single word follows: `'"it's so' again` but not `'"it's so' and went` (`C90_quotation`).
* Aliases: the schemes are joined without a group around them, so only the last needs `://`. Any word
  that starts like another scheme counts as an address and vanishes with its brackets:
  `Ask [1]telephone now.` gives `<p>Ask  now.</p>` (`C91_scheme`, `C91_telephone`). Two definitions on
  one line are read as one, whose alias is all up to the last bracket (`C91_greedy`).
* `encode_html` writes a newline as `&#13;` and a carriage return as `&#10;`, each the code of the other;
  `reverse_encode_html` turns them back alike (`C91_unescaped`, the table `escapes`).
* List items, definitions and cells: newlines are looked for in a lower-case copy, whose positions are
  used in the text itself. A letter whose lower-case form is longer shifts them: the item `İabcdef`,
  newline, `ghi` becomes `İabcdef`, newline, `<br>`, newline, `hi`; the `g` is lost (`C92_lost_refuted`).
* A list that starts with a meaning and goes on with a term: `: a`, `; b`, `: c` on three lines gives two `<dl>` and one `</dl>`, since
  the mark of the first list is overwritten by the one for meanings after a term (`C93_glossary_refuted`).
