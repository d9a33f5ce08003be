(** C40, C41: lists. *)
From Verif Require Import Str Unicode Regex RegexAuto ModelBase ModelHtml ModelInline ModelParser Samples SpecPlain SpecNewlines SpecDoc SpecLists ProofDocument ProofListDoc ProofListNested.

(** ** C40: the tags of a list are balanced.
    What holds: documents of lists and paragraphs; every list is a tree of bullet and ordered
    lists of any depth and width, whose items are plain words.  The result is well nested.
    Missing: items with attributes or inline markup, definition lists, lite mode. *)
Theorem C40_balanced_partial : forall W T fuel l html s, ready T -> t_lite T = false -> (0 < fuel)%nat -> Forall proper_part l ->
  parse W T fuel [] (sections (map part_source l)) = Ret html s -> nested html.
Proof. exact lists_nested. Qed.
Print Assumptions C40_balanced_partial.
(** False in general: a list below an item changes its kind. *)
Theorem C40_change_of_kind_refuted : exists html, html_of T0 (u "* a" ++ nl ++ u "** b" ++ nl ++ u "*# c") = Some html /\ ~ nested html.
Proof. eexists. split; [vm_compute; reflexivity|]. apply not_nested. vm_compute. discriminate. Qed.
Print Assumptions C40_change_of_kind_refuted.

(** ** C41: numbering of ordered lists.
    What holds: the whole result of the documents of C40, with the numbers of all ordered lists.
    [list_html] keeps for every marker the number of the next item: it is set to 1 or to the given
    number when a list starts, and every item adds one; a list that continues shows this number
    in its start attribute.  Past 2^64 - 1 there is an overflow.
    Missing: as for C40. *)
Theorem C41_numbering_partial : forall W T fuel l, ready T -> t_lite T = false -> (0 < fuel)%nat -> Forall proper_part l ->
  match parts_html l from_one with
  | Some hs => exists s, parse W T fuel [] (sections (map part_source l)) = Ret (sections hs) s
  | None => parse W T fuel [] (sections (map part_source l)) = Panic Overflow
  end.
Proof. exact (fun W T fuel l H1 H2 H3 H4 => lists_document W T (proj1 H1) H2 fuel l H1 H3 H4). Qed.
Print Assumptions C41_numbering_partial.
(** False in general: the largest number of 64 bits has no successor. *)
Theorem C41_largest_refuted : outcome T0 (u "#18446744073709551615 a") = Panic Overflow.
Proof. vm_compute. reflexivity. Qed.
Print Assumptions C41_largest_refuted.

(** Two ordered lists, a paragraph between them; the second goes on and has a list below. *)
Example C41_example :
  let l := [ListOf (Numbers One) [Item (u "one") Bullets []; Item (u "two") Bullets []]; Line (u "Some words");
            ListOf (Numbers Continue) [Item (u "three") (Numbers (Number 7)) [Item (u "seven") Bullets []; Item (u "eight") Bullets [Item (u "deep") Bullets []]]; Item (u "four") Bullets []]] in
  Forall proper_part l /\
  part_source (nth 2 l (Line [])) = u "#_ three" ++ nl ++ u "##7 seven" ++ nl ++ u "## eight" ++ nl ++ u "##* deep" ++ nl ++ u "# four" /\
  match parts_html l from_one with
  | Some [a; b; c] => a = u "<ol>" ++ nl ++ u "	<li>one</li>" ++ nl ++ u "	<li>two</li>" ++ nl ++ u "</ol>" /\ b = u "<p>Some words</p>" /\
      starts_with (u "<ol start=""3"">" ++ nl ++ u "	<li>three" ++ nl ++ u "	<ol start=""7"">") c = true
  | _ => False
  end.
Proof.
  split; [|split; [vm_compute; reflexivity|vm_compute; auto]].
  apply Forall_cons; [apply proper_of; [discriminate|vm_compute; reflexivity..]|]. apply Forall_cons; [apply runs_accepts; vm_compute; reflexivity|].
  apply Forall_cons; [apply proper_of; [discriminate|vm_compute; reflexivity..]|]. apply Forall_nil.
Qed.
