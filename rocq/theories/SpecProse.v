(** Prose: paragraphs of ordinary text, with quotes, dashes, ampersands and other marks in any order. *)
From Verif Require Import Str Unicode Regex RegexAuto ModelBase ModelParser SpecPlain SpecDoc SpecGlyphRules SpecGlyphText.

(** ** Prose
    Words separated by single blanks and newlines; a paragraph starts with an ASCII capital, a digit or a
    quote.  Words consist of letters, ASCII digits, hyphens between them, and the characters [inside] after
    the first one, in any order.  A line may start with a quote; a quote after a blank is followed by two
    characters, the first one a letter or a digit.  '?' and '!' come at the end of a word, perhaps with a
    quote behind.  One or two hyphens may stand between blanks.
    States: 0 start; 1 start of a line; 2 in a word; 3 after a blank; 4 after a blank and a quote, 5 with a
    character more; 6, 7 after a blank and hyphens; 8 after '?' or '!', 9 with a quote; 10 after hyphens and a
    blank; 11 after a hyphen in a word. *)
Definition any_of (l : str) : cls := mk_cls false (map (fun c => CRange c c) l).
Definition inside : cls := any_of (u ",;./'""&#$)]}\`").
Definition quote : cls := any_of (u "'""").
Definition sign : cls := any_of (u "&#$").
Definition sentence_end : cls := any_of (u "?!").
Definition prose : auto := mk_auto
  [(0, SpecPlain.capital, 2); (0, SpecPlain.digit, 2); (0, quote, 2);
   (1, SpecPlain.letter, 2); (1, SpecPlain.digit, 2); (1, quote, 2);
   (2, SpecPlain.letter, 2); (2, SpecPlain.digit, 2); (2, inside, 2); (2, hyphen, 11); (2, sentence_end, 8); (2, blank, 3); (2, newline, 1);
   (3, SpecPlain.letter, 2); (3, SpecPlain.digit, 2); (3, sign, 2); (3, quote, 4); (3, hyphen, 6);
   (4, SpecPlain.letter, 5); (4, SpecPlain.digit, 5);
   (5, SpecPlain.letter, 2); (5, SpecPlain.digit, 2); (5, inside, 2); (5, sentence_end, 8);
   (6, hyphen, 7); (6, blank, 10); (7, blank, 10);
   (8, quote, 9); (8, blank, 3); (8, newline, 1); (9, blank, 3); (9, newline, 1);
   (10, SpecPlain.letter, 2); (10, SpecPlain.digit, 2); (10, sign, 2); (10, quote, 4);
   (11, SpecPlain.letter, 2); (11, SpecPlain.digit, 2)]%nat 0%nat [2; 5; 8; 9]%nat.
(** No three capitals in a row. *)
Definition few_capitals (t : str) : Prop :=
  forall a x y z b, t = a ++ x :: y :: z :: b -> SpecGlyphRules.capital x = true -> SpecGlyphRules.capital y = true -> SpecGlyphRules.capital z = true -> False.
Definition prose_text (t : str) : Prop := accepts prose t /\ few_capitals t.

(** ** Its HTML: the text as the typographic rules set it, with its line breaks, in a paragraph.
    The rules work on text with its ampersands escaped; in restricted mode, all of them. *)
Definition prose_set (html5 restricted : bool) (t : str) : str := typographic html5 (if restricted then flat_map (entity false) t else escaped t).
Definition prose_html (T : textile) (t : str) : str :=
  element (u "p") (breaks (line_break T) (prose_set (match t_html T with HTML5 => true | XHTML => false end) (t_restricted T) t)).
