(** C77, C78: fragments between two marks. *)
From Verif Require Import Str ModelBase ModelInline ModelParser SpecPlain SpecState SpecMarks ProofMarks Samples.

(** ** C77: fragments between marks are found and put on the shelf, for every text and state.
    First those that are not touched. *)
Theorem C77_untouched : forall T t s,
  let '(t1, s1) := marks_step T (u "<notextile>") (u "</notextile>") (fun c => c) (between [] []) (t, s) in
  let '(t2, s2) := marks_step T (u "==") (u "==") (fun c => c) (between [] []) (t1, s1) in
  no_textile T t s = Ret t2 s2.
Proof. exact no_textile_marks. Qed.
Print Assumptions C77_untouched.
(** Then code and preformatted text, escaped. *)
Theorem C77_code : forall T t s,
  let '(t1, s1) := marks_step T (u "<code>") (u "</code>") (fun c => element (u "code") (entities false c)) (between [] []) (t, s) in
  let '(t2, s2) := marks_step T (u "@") (u "@") (fun c => element (u "code") (entities false c)) (between [] []) (t1, s1) in
  let '(t3, s3) := marks_step T (u "<pre>") (u "</pre>") (entities true) (between (u "<pre>") (u "</pre>")) (t2, s2) in
  code T t s = Ret t3 s3.
Proof. exact code_marks. Qed.
Print Assumptions C77_code.
(** Then comments, inside of their marks. *)
Theorem C77_comments : forall T t s,
  let '(t1, s1) := marks_step T (u "<!--") (u "-->") (fun c => c) comment_form (t, s) in
  get_html_comments T t s = Ret t1 s1.
Proof. exact comment_marks. Qed.
Print Assumptions C77_comments.
(** The fragments and the characters between them are the text. *)
Theorem C77_parts : forall opening closing t, opening <> [] -> closing <> [] -> flat_map (part_source opening closing) (parts opening closing t) = t.
Proof. exact (fun opening closing t Ho Hc => parts_source opening closing Ho Hc (List.length t) true t (le_n _)). Qed.
Print Assumptions C77_parts.
Example C77_example :
  parts (u "@") (u "@") (u "@a@ [@b@] x@c@ (@d e@). @f") =
    [Marked [] (u "a") []; Other 32; Marked (u "[") (u "b") (u "]")] ++ map Other (u " x@c@ ") ++ [Marked (u "(") (u "d e") (u ")")] ++ map Other (u ". @f") /\
  shown T0 (between [] []) 4 (parts (u "@") (u "@") (u "@a@ [@b@] (@d e@). @f")) = u "textileRef:abc:5:shelve textileRef:abc:6:shelve (textileRef:abc:7:shelve). @f" /\
  html_of T0 (u "Foo <pre>a *b* < x</pre>, bar <!-- no *x* --> <code>*x*&</code> a <notextile>*b*</notextile>") =
    Some (u "Foo <pre>a *b* &lt; x</pre>, bar <!-- no *x* --> <code>*x*&amp;</code> a *b*").
Proof. split; [vm_compute; reflexivity|]. split; vm_compute; reflexivity. Qed.

(** ** C78: the text around comments is kept.
    What holds, for every text in which no closing bracket stands right after a comment: with the comments back in their places the text is what it was.
    Missing: comments with a bracket after them. *)
Theorem C78_comments_partial : forall T t s t' s', (forall a d b, t = a ++ u "-->" ++ d :: b -> ~ In d (u "])}")) -> get_html_comments T t s = Ret t' s' ->
  exists l, t' = shown T comment_form (ps_ref_index s) l /\ s' = set_aside T (contents l) s /\
    flat_map (fun p => match p with Other d => [d] | Marked b c a => comment_form b a c end) l = t.
Proof. exact comments_kept. Qed.
Print Assumptions C78_comments_partial.
Example C78_example : exists s, get_html_comments T0 (u "a <!--b (-->, c") (new_state []) = Ret (u "a <!--textileRef:abc:1:shelve-->, c") s /\
  parts (u "<!--") (u "-->") (u "a <!--b (-->, c") = [Other 97; Marked (u " ") (u "b (") []] ++ map Other (u ", c").
Proof. eexists. split; vm_compute; reflexivity. Qed.
(** False in general: a bracket after a comment is lost. *)
Theorem C78_bracket_refuted : html_of T0 (u "Foo (<!--a-->) bar") = Some (u "<p>Foo (<!--a--> bar</p>").
Proof. vm_compute. reflexivity. Qed.
Print Assumptions C78_bracket_refuted.
