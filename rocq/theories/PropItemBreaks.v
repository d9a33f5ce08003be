(** Property C92: line breaks in list items, definitions and cells. *)
From Verif Require Import Str ModelBase ModelHtml ModelInline ModelParser SpecItemBreaks ProofItemBreaks Samples.

(** ** C92: in every text of ASCII characters, a break tag is put before exactly the newlines that
    [lines_broken] tells, and everything else is kept; there it never fails and leaves the state alone. *)
Theorem C92_lines_partial : forall br t s, ascii t -> insert_brs t br s = Ret (lines_broken br [] t) s.
Proof. exact broken_exact. Qed.
Print Assumptions C92_lines_partial.
Example C92_example : ascii (u "a</LI>" ++ nl ++ u "b" ++ nl ++ u "c<br>" ++ nl ++ u "d" ++ nl ++ u " e" ++ nl ++ u "|f" ++ nl) /\
  lines_broken (u "<br>") [] (u "a</LI>" ++ nl ++ u "b" ++ nl ++ u "c<br>" ++ nl ++ u "d" ++ nl ++ u " e" ++ nl ++ u "|f" ++ nl) =
  u "a</LI>" ++ nl ++ u "b<br>" ++ nl ++ u "c<br>" ++ nl ++ u "d" ++ nl ++ u " e" ++ nl ++ u "|f<br>" ++ nl.
Proof.
  split; [|vm_compute; reflexivity]. intros c H. assert (E : forallb (fun c => c <? 128) (u "a</LI>" ++ nl ++ u "b" ++ nl ++ u "c<br>" ++ nl ++ u "d" ++ nl ++ u " e" ++ nl ++ u "|f" ++ nl) = true) by (vm_compute; reflexivity).
  rewrite forallb_forall in E. apply N.ltb_lt, E, H.
Qed.
(** For other texts it is false: what stands before a newline is cut off by bytes, which fails within a
    character; and the newlines are looked for in the text of small letters, which may be of another length. *)
Theorem C92_bytes_refuted : insert_brs ([233] ++ u "abc" ++ nl ++ u "d") (u "<br>") (new_state []) = Panic BadSlice.
Proof. vm_compute. reflexivity. Qed.
Print Assumptions C92_bytes_refuted.
Theorem C92_lengths_refuted : insert_brs ([304] ++ u "abcdef" ++ nl ++ u "ghi") (u "<br>") (new_state []) <> Ret (lines_broken (u "<br>") [] ([304] ++ u "abcdef" ++ nl ++ u "ghi")) (new_state []).
Proof. vm_compute. discriminate. Qed.
Print Assumptions C92_lengths_refuted.
(** So a list item may lose a letter. *)
Theorem C92_lost_refuted : html_of T0 (u "* " ++ [304] ++ u "abcdef" ++ nl ++ u "ghi") =
  Some (u "<ul>" ++ nl ++ tab ++ u "<li>" ++ [304] ++ u "abcdef" ++ nl ++ u "<br>" ++ nl ++ u "hi</li>" ++ nl ++ u "</ul>").
Proof. vm_compute. reflexivity. Qed.
Print Assumptions C92_lost_refuted.
