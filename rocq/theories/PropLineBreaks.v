(** Property C86: line breaks in paragraphs and headings, in any text. *)
From Verif Require Import Str ModelBase ModelHtml ModelInline ModelParser Samples SpecLineBreaks ProofLineBreaks.

(** ** C86: the step that breaks lines finds, in every text, exactly the stretches [paragraph_at] tells,
    and puts a break tag for the newlines [break_lines] tells, without doubling those written out; it
    never fails and leaves the state alone. *)
Theorem C86_line_breaks : forall T t s, do_p_br T t s = Ret (broken (br_tag T) t) s.
Proof. exact broken_exact. Qed.
Print Assumptions C86_line_breaks.
Example C86_example :
  broken (u "<br>") (u "a
<p>b
c<br />
d
 e
|f<BR  /> 

g</p>
h<h2 id=""x"">i
j</h2></h1>") = u "a
<p>b<br>c<br>d
 e
|f<br>g</p>
h<h2 id=""x"">i<br>j</h2></h1>".
Proof. vm_compute. reflexivity. Qed.

(** "Lines are broken in paragraphs and headings only" is false: every tag whose name begins with a p
    is taken for that of a paragraph, if the block holds the end of a paragraph. *)
Example C86_other_tags :
  html_of T0 (u "<pre>a
b</pre>
<p>c</p>") = Some (u "<pre>a
b</pre><br>
<p>c</p>") /\
  html_of T0 (u "<progress>a
b</progress> <p>c</p>") = Some (u "<progress>a<br>
b</progress> <p>c</p>").
Proof. split; vm_compute; reflexivity. Qed.
