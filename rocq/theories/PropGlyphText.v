(** Property C88: the typography of a whole text. *)
From Verif Require Import Str Regex ModelBase ModelHtml ModelInline ModelParser Samples SpecPlain SpecGlyphs SpecGlyphRules SpecGlyphText ProofGlyphRules ProofGlyphSteps ProofGlyphText.

Definition is_html5 (T : textile) : bool := match t_html T with HTML5 => true | XHTML => false end.
(** ** C88: of every text, the step keeps the tags and sets the texts between them as [typeset] tells; it
    drops the newlines at the end, never fails and leaves the state alone. *)
Theorem C88_whole_text : forall T, simple_uid (t_uid T) -> caps_set T -> forall text s,
  glyphs T text s = Ret (between_tags (typeset (is_html5 T) (t_restricted T) (t_uid T)) (trim_end_matches 10 text)) s.
Proof. exact glyphs_exact. Qed.
Print Assumptions C88_whole_text.
Example C88_settings : simple_uid (t_uid T0) /\ caps_set T0.
Proof. split; [exists (u "abc"); split; [reflexivity|]; intros c H; repeat destruct H as [<-|H]; try destruct H; vm_compute; intuition|reflexivity]. Qed.
Example C88_example :
  between_tags (typeset true false (u "X")) (u "a &amp; b &c; &#x1F; &d<i x='y'>it's</i> 2>1 (NASAs) x") =
  u "a &amp; b &c; &#x1F; &amp;d<i x='y'>it&#8217;s</i> 2&gt;1 (<span class=""caps"">X:glyph:NASA</span>s) x".
Proof. vm_compute. reflexivity. Qed.
(** In restricted mode '<' and '&' are left, since they have been escaped before. *)
Example C88_restricted : between_tags (typeset false true (u "X")) (u "a &b <i> ABCd-") = u "a &b <i> <span class=""caps"">X:glyph:ABC</span>d-".
Proof. vm_compute. reflexivity. Qed.
(** A tag ends at the first '>' of the line, also within an attribute; what follows is set as text. *)
Example C88_attribute : between_tags (typeset true false (u "X")) (u "<a title=""x>y'z"">") = u "<a title=""x>y&#8217;z&#8221;&gt;".
Proof. vm_compute. reflexivity. Qed.
