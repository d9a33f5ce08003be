(** C59: straight quotes are replaced. *)
From Verif Require Import Str Unicode Regex ModelBase ModelHtml ModelInline ModelParser Samples SpecPlain SpecRegex SpecGlyphs ProofGlyphs.

(** No straight quote is left of a text between two tags, whatever the text: the only ones are
    those of the tags put in for acronyms and for words in capitals.  In restricted mode a text
    has no '<' here, since all of them have been escaped before; in the other mode '<' is free. *)
Theorem C59_chunk : forall T, simple_uid (t_uid T) -> caps_set T -> forall text, (t_restricted T = true -> ~ In 60 text) -> clean (glyph_chunk T text).
Proof. exact chunk_clean. Qed.
Print Assumptions C59_chunk.
(** The step for a whole text cuts it into tags and the texts between them, leaves every tag as
    it is and no straight quote in the texts between; newlines at the end are dropped. *)
Theorem C59_text : forall T, simple_uid (t_uid T) -> caps_set T -> forall text s, exists lits tags outs,
  trim_end_matches 10 text = interleave lits tags /\ Forall is_tag tags /\ List.length lits = S (List.length tags) /\
  Forall2 (fun lit out => (t_restricted T = true -> ~ In 60 lit) -> clean out) lits outs /\
  glyphs T text s = Ret (interleave outs tags) s.
Proof. exact glyphs_clean. Qed.
Print Assumptions C59_text.
(** The settings are met, and a text with quotes of all kinds. *)
Example C59_settings : simple_uid (t_uid T0) /\ caps_set T0.
Proof. split; [exists (u "abc"); split; [reflexivity|]; intros c H; repeat destruct H as [<-|H]; try destruct H; vm_compute; intuition|reflexivity]. Qed.
Example C59_example : glyphs T0 (u "it's 5'10"""" <i title='x'>y'z</i> AB(a ""b"")") (new_state []) =
  Ret (u "it&#8217;s 5&#8217;10&#8221;&#8220; <i title='x'>y&#8217;z</i> AB(a &#8220;b&#8221;)") (new_state []).
Proof. vm_compute. reflexivity. Qed.
Example C59_acronym : glyph_chunk T0 (u "ABC(a ""b"" 'c')") =
  u "<abbr title=""a &#8220;b&#8221; &#8216;c&#8217;""><span class=""caps"">textileRef:abc::glyph:ABC</span></abbr>".
Proof. vm_compute. reflexivity. Qed.
Example C59_default : forall id, caps_set (default_textile id).
Proof. reflexivity. Qed.
