(** Property C87: the typographic replacements, as rules for any text. *)
From Verif Require Import Str Regex ModelBase ModelHtml ModelInline ModelParser Samples SpecGlyphRules ProofGlyphRules ProofGlyphSteps.

(** ** C87: on every text, the table of 22 replacements does what the 22 rules of [typographic] tell, one
    after the other, each from left to right. *)
Theorem C87_typography : forall html5 text, multi_replace text (glyph_replacers html5) = typographic html5 text.
Proof. exact glyphs_all. Qed.
Print Assumptions C87_typography.
Example C87_example :
  typographic true (u "It's '09b, (""so"") 'q' -- 3 x 4""x$ 2 - (c) [1/4] a...b & c(tm) ABC(x y)") =
  u "It&#8217;s &#8217;09b, (&#8220;so&#8221;) &#8216;q&#8217; &#8212; 3 &#215; 4&#8221;&#215;$ 2 &#8211; &#169; &#188; a&#8230;b &amp; c&#8482; <abbr title=""x y"">ABC</abbr>".
Proof. vm_compute. reflexivity. Qed.

(** No straight apostrophe is left, whatever the text. *)
Theorem C87_apostrophes : forall html5 text, ~ In 39 (multi_replace text (glyph_replacers html5)).
Proof. exact no_apostrophe. Qed.
Print Assumptions C87_apostrophes.
Example C87_apostrophes_example : multi_replace (u "'a' b'c '7 ''") (glyph_replacers false) = u "&#8216;a&#8217; b&#8217;c &#8217;7 &#8216;&#8217;".
Proof. vm_compute. reflexivity. Qed.
