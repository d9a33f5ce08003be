(** Property C93: lists of terms and their meanings. *)
From Verif Require Import Str ModelBase ModelInline ModelParser SpecGlossary ProofGlossary Samples.

(** ** C93: the items of a list that starts with a term become one list element with one element for each of them,
    in their order; the state stays. *)
Theorem C93_glossary_partial : forall T w l s, shown (Term w :: l) ->
  exists lines, list_lines T None [] (map item_of (Term w :: l)) s = Ret lines s /\ join nl lines = glossary_html (Term w :: l).
Proof. exact glossary. Qed.
Print Assumptions C93_glossary_partial.
(** The exact result of every list, also of those that start with a meaning. *)
Theorem C93_lists : forall T l s, l <> [] -> shown l ->
  exists lines, list_lines T None [] (map item_of l) s = Ret lines s /\ join nl lines = list_html l.
Proof. exact any_list. Qed.
Print Assumptions C93_lists.
(** A list may start with a meaning.  If a meaning also follows a term, there are two list elements, of which only one is closed. *)
Theorem C93_glossary_refuted : forall T s, exists l lines, l <> [] /\ shown l /\ list_lines T None [] (map item_of l) s = Ret lines s /\
  join nl lines = u "<dl>" ++ nl ++ tab ++ u "<dd>a</dd>" ++ nl ++ u "<dl>" ++ nl ++ tab ++ u "<dt>b</dt>" ++ nl ++ tab ++ u "<dd>c</dd>" ++ nl ++ u "</dl>".
Proof. exact glossary_open. Qed.
Print Assumptions C93_glossary_refuted.
(** Whole documents. *)
Example C93_example :
  shown [Term (u "a"); Meaning (u "b"); Meaning (u "c"); Term (u "d")] /\
  html_of T0 (u "; a" ++ nl ++ u ": b" ++ nl ++ u ": c" ++ nl ++ u "; d") = Some (glossary_html [Term (u "a"); Meaning (u "b"); Meaning (u "c"); Term (u "d")]).
Proof. split; [repeat constructor|vm_compute; reflexivity]. Qed.
Example C93_open : html_of T0 (u ": a" ++ nl ++ u "; b" ++ nl ++ u ": c") =
  Some (u "<dl>" ++ nl ++ tab ++ u "<dd>a</dd>" ++ nl ++ u "<dl>" ++ nl ++ tab ++ u "<dt>b</dt>" ++ nl ++ tab ++ u "<dd>c</dd>" ++ nl ++ u "</dl>").
Proof. vm_compute. reflexivity. Qed.
Example C93_lists_example :
  list_html [Meaning (u "a"); Meaning (u "b")] = glossary_html [Meaning (u "a"); Meaning (u "b")] /\
  html_of T0 (u ": a" ++ nl ++ u "; b") = Some (list_html [Meaning (u "a"); Term (u "b")]) /\
  html_of T0 (u ": a" ++ nl ++ u "; b" ++ nl ++ u ": c" ++ nl ++ u "; d") = Some (list_html [Meaning (u "a"); Term (u "b"); Meaning (u "c"); Term (u "d")]).
Proof. split; [|split]; vm_compute; reflexivity. Qed.
