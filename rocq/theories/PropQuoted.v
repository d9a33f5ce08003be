(** Property C90: quotes that stand alone or around a quotation. *)
From Verif Require Import Str ModelBase ModelInline ModelParser SpecPlain SpecState SpecGlyphs SpecQuoted ProofQuoted Samples.

(** ** C90: in every text and state the step finds exactly the quotes that [pieces] tells, puts those that
    fit on the shelf, under the next numbers, in their order, with tokens in their places, and leaves
    everything else.  It never fails. *)
Theorem C90_quotes : forall T, simple_uid (t_uid T) -> caps_set T -> forall t s,
  glyph_quoted_quote T t s = Ret (pieces_shown T (pieces t) (ps_ref_index s)) (fold_left (shelved T) (fragments T (pieces t)) s).
Proof. exact quoted_exact. Qed.
Print Assumptions C90_quotes.
(** The quotes and the characters between them are the text. *)
Theorem C90_source : forall t, flat_map piece_source (pieces t) = t.
Proof. exact (fun t => pieces_source (List.length t) t (le_n _)). Qed.
Print Assumptions C90_source.
Example C90_settings : simple_uid (t_uid T0) /\ caps_set T0.
Proof. split; [exists (u "abc"); split; [reflexivity|]; intros c H; repeat destruct H as [<-|H]; try destruct H; vm_compute; intuition|reflexivity]. Qed.
Example C90_example :
  pieces (u "a '""' b ("") c ""x y") = [Char 97; Quote 39 [34] 39] ++ [Char 98; Quote 40 [34] 41] ++ map Char (u "c") ++ [Quote 34 [] 120; Char 121] /\
  fragments T0 (pieces (u "a '""' b ("") c ""x y")) = [u " &#8216;&quot;&#8217; "; u " (&quot;) "] /\
  pieces_shown T0 (pieces (u "a '""' b ("") c ""x y")) 4 = u "a" ++ fragment_token T0 5 ++ u "b" ++ fragment_token T0 6 ++ u "c ""x y".
Proof. split; [|split]; vm_compute; reflexivity. Qed.
(** A quotation is set as text; it reaches to the last blank before the next double quote, so it does not
    fit if more than a word follows. *)
Example C90_quotation : fragments T0 (pieces (u "he said '""it's so' again")) = [u " &#8216;&#8220;it&#8217;s so&#8217; "] /\
  pieces (u " '""it's so' and went") = [Quote 39 (u """it's so' an") 100] ++ map Char (u "went") /\ fragments T0 (pieces (u " '""it's so' and went")) = [].
Proof. split; [|split]; vm_compute; reflexivity. Qed.
(** Whatever is found hides what overlaps with it, also if it is left alone. *)
Example C90_hides : fragments T0 (pieces (u "a "". '""' b")) = [] /\ fragments T0 (pieces (u "a "".  '""' b")) = [u " &#8216;&quot;&#8217; "].
Proof. split; vm_compute; reflexivity. Qed.
