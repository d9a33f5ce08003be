(** C69: break tags are spelled in one way. *)
From Verif Require Import Str Unicode Regex ModelBase ModelHtml ModelInline ModelParser Samples SpecSpelling ProofSpelling.

(** A block adds to the output at most the closing tags of the blocks before it and a body, to
    which the white space before it is prepended; a break tag in the body, however the author
    spelled it, is spelled as the kind of document requires.  Only an empty block or one
    that consumes its text adds no body.  Texts that are set aside are not in the body yet. *)
Theorem C69_blocks : forall W T g a text s a' s', block_step W T g a text s = Ret a' s' ->
  exists before body, (before = bl_out a \/ before = push_last (bl_closing a) (bl_out a)) /\ breaks_spelled (br_tag T) body /\
  ((bl_out a' = before /\ (is_empty (trim text) = true \/ bl_eat a' = true)) \/
   bl_out a' = (bl_ws a ++ body) :: before \/ bl_out a' = push_last (bl_ws a ++ body) before).
Proof. exact block_spelled. Qed.
Print Assumptions C69_blocks.
Example C69_spellings : break_spelling (u "<BR/>") /\ break_spelling (u "<br   />") /\ break_spelling (u "<bR>") /\ break_spelling (u "<br />").
Proof.
  repeat split.
  - exists 66, 82, [], [47]. repeat split; auto.
  - exists 98, 114, [32; 32; 32], [47]. repeat split; auto. repeat constructor; vm_compute; intuition discriminate.
  - exists 98, 82, [], []. repeat split; auto.
  - exists 98, 114, [32], [47]. repeat split; auto. repeat constructor; vm_compute; intuition discriminate.
Qed.
Example C69_html5 : html_of T0 (u "One<BR/>two<br   />three") = Some (u "<p>One<br>" ++ [10] ++ u "two<br>" ++ [10] ++ u "three</p>").
Proof. vm_compute. reflexivity. Qed.
Example C69_xhtml : html_of (set_html_kind XHTML T0) (u "One<BR>two") = Some (u "<p>One<br />" ++ [10] ++ u "two</p>").
Proof. vm_compute. reflexivity. Qed.
