(** C29, C31, C32, C33, C34, C58: footnote definitions, notes and note lists. *)
From Coq Require Import ZArith.
From Verif Require Import Str Unicode Regex RegexSnips ModelBase ModelHtml ModelAttrs ModelInline ModelParser Samples SpecHtml SpecParse SpecState
  Logic ProofState ProofCache SpecNotes ProofNotes.

(** ** C29: a footnote definition and its references agree.
    What holds: the definition of a footnote that has been referenced carries the id of its
    references.  Missing: definitions before the first reference. *)
Theorem C29_after_partial : forall T n attrs content ba s t ba' c' s', digit_text n -> attr_safe (t_link_prefix T) -> footnotes_ok T s ->
  block_footnote T (u "fn" ++ n) attrs content ba s = Ret (t, ba', c') s' ->
  t = u "p" /\ ps_footnotes s' = ps_footnotes s /\
  (forall id, assoc n (ps_footnotes s) = Some id -> s' = s /\ has_anchor id (ba_html_attrs ba') c') /\
  (assoc n (ps_footnotes s) = None -> ps_link_index s' = ps_link_index s + 1 /\
     has_anchor (t_link_prefix T ++ dec (ps_link_index s')) (ba_html_attrs ba') c').
Proof. exact footnote_definition. Qed.
Print Assumptions C29_after_partial.
(** False in general: the definition first. *)
Theorem C29_before_refuted : html_of T0 (u "fn1. foo" ++ nl ++ nl ++ u "bar[1]") =
  Some (u "<p class=""footnote"" id=""fnabc-1""><sup>1</sup> foo</p>" ++ nl ++ nl ++
        u "<p>bar<sup class=""footnote"" id=""fnrevabc-2""><a href=""#fnabc-2"">1</a></sup></p>").
Proof. vm_compute. reflexivity. Qed.
Print Assumptions C29_before_refuted.
Example C29_example : html_of T0 (u "bar[1] baz[2]" ++ nl ++ nl ++ u "fn2(#x)^. foo") =
  Some (u "<p>bar<sup class=""footnote"" id=""fnrevabc-1""><a href=""#fnabc-1"">1</a></sup> baz<sup class=""footnote"" id=""fnrevabc-2""><a href=""#fnabc-2"">2</a></sup></p>"
        ++ nl ++ nl ++ u "<p class=""footnote"" id=""x""><sup id=""fnabc-2""><a href=""#fnrevabc-2"">2</a></sup> foo</p>").
Proof. vm_compute. reflexivity. Qed.

(** ** C31: the note list is in numeric order.
    What holds: the notes of a document are listed in the dictionary order of their decimal
    numbers, so with at most nine notes in numeric order.  Missing: ten notes or more. *)
Theorem C31_order_partial : forall W T fuel n text t s text' html s', block W T (graf_n W T fuel n) text (new_state []) = Ret t s ->
  place_note_lists T text' s = Ret html s' ->
  exists order, notes_ok order s /\ in_dictionary_order order s (ps_notes s') /\
  ((List.length order <= 9)%nat -> in_number_order order s (ps_notes s')).
Proof. exact notes_in_order. Qed.
Print Assumptions C31_order_partial.
(** False in general: with ten notes the tenth is listed second. *)
Theorem C31_ten_refuted :
  match parse W0 T0 60 [] (u "a[#a] b[#b] c[#c] d[#d] e[#e] f[#f] g[#g] h[#h] i[#i] j[#j]" ++ nl ++ nl ++ u "notelist.") with
  | Ret html s => map fst (ps_notes s) = map u ["1"; "10"; "2"; "3"; "4"; "5"; "6"; "7"; "8"; "9"]%string
  | _ => False
  end.
Proof. vm_compute. reflexivity. Qed.
Print Assumptions C31_ten_refuted.
Example C31_example : html_of T0 (u "a[#y] b[#x]" ++ nl ++ nl ++ u "notelist.") =
  Some (u "<p>a<sup><a href=""#noteabc-2""><span id=""noterefabc-1"">1</span></a></sup> b<sup><a href=""#noteabc-4""><span id=""noterefabc-3"">2</span></a></sup></p>"
    ++ nl ++ nl ++ u "<ol>" ++ nl ++ [9; 9] ++ u "<li><sup><a href=""#noterefabc-1"">a</a></sup> Undefined Note [#y].</li>"
    ++ nl ++ [9; 9] ++ u "<li><sup><a href=""#noterefabc-3"">a</a></sup> Undefined Note [#x].</li>" ++ nl ++ [9] ++ u "</ol>").
Proof. vm_compute. reflexivity. Qed.

(** ** C32: a note definition is kept wherever it stands.
    What holds: the definition of a note that has been referenced, and has no kind of back
    link of its own yet, stores its text; once referenced a note keeps having a text; the
    list shows it (C34).  Missing: definitions before the first reference. *)
Theorem C32_after_partial : forall W T fuel n h label a s t s', cap_opt 1 h = Some label -> note_referenced label a s -> n_link a = None ->
  notes_have_ids s -> ps_borrowed s = false -> @cache_ok (own T) (ps_cache s) ->
  parse_note_defs T (graf_n W T fuel n) h s = Ret t s' ->
  exists body kind text s1 atts b, cap_opt 4 h = Some body /\ cap_opt 2 h = Some kind /\ graf_n W T fuel n body s = Ret text s1 /\
  note_referenced label b s' /\ stays a b /\ n_content b = Some text /\ n_attrs b = Some atts /\
  (kind = [] -> n_link b = None) /\ (kind <> [] -> n_link b = Some kind).
Proof. exact definition_kept. Qed.
Print Assumptions C32_after_partial.
Theorem C32_kept_partial : forall W T fuel n text s t s', notes_have_ids s -> ps_borrowed s = false -> @cache_ok (own T) (ps_cache s) ->
  block W T (graf_n W T fuel n) text s = Ret t s' ->
  notes_have_ids s' /\ forall label a, note_referenced label a s -> exists b, note_referenced label b s' /\ stays a b.
Proof. exact block_stay. Qed.
Print Assumptions C32_kept_partial.
(** A definition that is never referenced is kept aside for the lists that show it. *)
Theorem C32_unreferenced_partial : forall W T fuel n text t s text' html s',
  block W T (graf_n W T fuel n) text (new_state []) = Ret t s -> place_note_lists T text' s = Ret html s' ->
  forall label nt, n_seq nt = None -> assoc label (ps_notes s) = Some nt -> assoc label (ps_unref s') = Some nt.
Proof. exact notes_kept_aside. Qed.
Print Assumptions C32_unreferenced_partial.
Example C32_unreferenced_example : html_of T0 (u "note#x. foo" ++ nl ++ nl ++ u "notelist+.") =
  Some (u "<ol>" ++ nl ++ [9; 9] ++ u "<li>foo</li>" ++ nl ++ [9] ++ u "</ol>").
Proof. vm_compute. reflexivity. Qed.
(** False in general: the first reference always forgets the text of a definition before it. *)
Theorem C32_before_refuted : forall T h label s html s', cap_opt 2 h = Some label -> (forall a, ~ note_referenced label a s) ->
  f_parse_note_refs T h s = Ret html s' -> exists a, note_referenced label a s' /\ n_content a = None.
Proof. exact reference_forgets. Qed.
Print Assumptions C32_before_refuted.
Example C32_before_example : html_of T0 (u "note#x. foo" ++ nl ++ nl ++ u "a[#x]" ++ nl ++ nl ++ u "notelist.") =
  Some (u "<p>a<sup><a href=""#noteabc-3""><span id=""noterefabc-2"">1</span></a></sup></p>" ++ nl ++ nl ++ u "<ol>" ++ nl ++ [9; 9] ++
    u "<li><sup><a href=""#noterefabc-2"">a</a></sup> Undefined Note [#x].</li>" ++ nl ++ [9] ++ u "</ol>").
Proof. vm_compute. reflexivity. Qed.
Example C32_after_example : html_of T0 (u "a[#x]" ++ nl ++ nl ++ u "note#x. foo" ++ nl ++ nl ++ u "notelist.") =
  Some (u "<p>a<sup><a href=""#noteabc-2""><span id=""noterefabc-1"">1</span></a></sup></p>" ++ nl ++ nl ++ u "<ol>" ++ nl ++ [9; 9] ++
    u "<li><sup><a href=""#noterefabc-1"">a</a></sup><span id=""noteabc-2""> </span>foo</li>" ++ nl ++ [9] ++ u "</ol>").
Proof. vm_compute. reflexivity. Qed.

(** ** C33: every note reference links to its note.
    What holds: the first reference links to the id of the note, and the note keeps it (and
    its number).  Missing: later references. *)
Theorem C33_first_partial : forall T h label s html s', cap_opt 2 h = Some label -> (forall a, ~ note_referenced label a s) ->
  f_parse_note_refs T h s = Ret html s' ->
  exists num anchor attrs a, note_referenced label a s' /\ n_id a <> [] /\
  html = generate_tag (u "sup") (Some (note_html num anchor (n_id a) (seqb (cap_or 3 h) (u "!")))) attrs.
Proof. exact first_reference. Qed.
Print Assumptions C33_first_partial.
Theorem C33_kept_partial : forall W T fuel n text s t s', notes_have_ids s -> ps_borrowed s = false -> @cache_ok (own T) (ps_cache s) ->
  graf_n W T fuel n text s = Ret t s' ->
  notes_have_ids s' /\ forall label a, note_referenced label a s -> exists b, note_referenced label b s' /\ same_text a b.
Proof. exact graf_stay. Qed.
Print Assumptions C33_kept_partial.
(** False in general: no later reference does; its [href] is ["#note"] alone. *)
Theorem C33_later_refuted : forall T h label a s html s', cap_opt 2 h = Some label -> note_referenced label a s -> notes_have_ids s ->
  f_parse_note_refs T h s = Ret html s' ->
  exists num anchor attrs, n_seq a = Some num /\
  html = generate_tag (u "sup") (Some (note_html num anchor [] (seqb (cap_or 3 h) (u "!")))) attrs.
Proof. exact later_reference. Qed.
Print Assumptions C33_later_refuted.
Example C33_example : html_of T0 (u "a[#x] b[#x]") =
  Some (u "<p>a<sup><a href=""#noteabc-2""><span id=""noterefabc-1"">1</span></a></sup> b<sup><a href=""#note""><span id=""noterefabc-3"">1</span></a></sup></p>").
Proof. vm_compute. reflexivity. Qed.

(** ** C34: a repeated note list is repeated.
    What holds: the first list with its options shows every note, in the order of C31.  False:
    every later list with the same options is empty. *)
Theorem C34_lists_refuted : forall T h s html s', f_note_lists T h s = Ret html s' ->
  exists kind extras start, cap_opt 3 h = Some kind /\ cap_opt 4 h = Some extras /\
  start = match cap_opt 2 h with Some (c :: _) => c | _ => 97 end /\ ps_notes s' = ps_notes s /\ ps_unref s' = ps_unref s /\
  let options := kind ++ extras ++ [start] in
  (assoc options (ps_nl_cache s) <> None -> html = []) /\
  (assoc options (ps_nl_cache s) = None -> exists atts items,
     Forall2 (note_shown kind start) (ps_notes s) items /\
     html = note_list atts (items ++ if seqb extras (u "+") then map unreferenced (ps_unref s) else [])) /\
  (forall o, assoc o (ps_nl_cache s') <> None <-> o = options \/ assoc o (ps_nl_cache s) <> None).
Proof. exact notes_listed. Qed.
Print Assumptions C34_lists_refuted.
Example C34_example : html_of T0 (u "a[#x]" ++ nl ++ nl ++ u "notelist." ++ nl ++ nl ++ u "notelist:1.") =
  Some (u "<p>a<sup><a href=""#noteabc-2""><span id=""noterefabc-1"">1</span></a></sup></p>" ++ nl ++ nl ++ u "<ol>" ++ nl ++ [9; 9] ++
    u "<li><sup><a href=""#noterefabc-1"">a</a></sup> Undefined Note [#x].</li>" ++ nl ++ [9] ++ u "</ol>" ++ nl ++ nl ++
    u "<ol>" ++ nl ++ [9; 9] ++
    u "<li><sup><a href=""#noterefabc-1"">1</a></sup> Undefined Note [#x].</li>" ++ nl ++ [9] ++ u "</ol>").
Proof. vm_compute. reflexivity. Qed.
Example C34_repeated_example : html_of T0 (u "a[#x]" ++ nl ++ nl ++ u "notelist." ++ nl ++ nl ++ u "notelist.") =
  html_of T0 (u "a[#x]" ++ nl ++ nl ++ u "notelist.").
Proof. vm_compute. reflexivity. Qed.

(** ** C58: back references to notes *)
Theorem C58_links : forall nt kind start s text s', make_back_ref_link nt kind start s = Ret text s' ->
  s' = s /\ linked_back (match n_link nt with Some k => k | None => kind end) start (n_refids nt) text.
Proof. exact back_links_of. Qed.
Print Assumptions C58_links.
(** They are made whenever the last character code is in the range of the type. *)
Theorem C58_total : forall nt kind start s, start + N.of_nat (List.length (n_refids nt)) <= 4294967295 ->
  exists text, make_back_ref_link nt kind start s = Ret text s.
Proof. exact back_links_total. Qed.
Print Assumptions C58_total.
Example C58_example : make_back_ref_link (mk_note (u "i") None None None None [u "r"; u "s"; u "t"]) [] 120 (new_state []) =
  Ret (u "<sup><a href=""#noterefr"">x</a></sup> <sup><a href=""#noterefs"">y</a></sup> <sup><a href=""#notereft"">z</a></sup>") (new_state []).
Proof. vm_compute. reflexivity. Qed.
Example C58_symbol_example : make_back_ref_link (mk_note (u "i") None None None None [u "r"; u "s"]) [] 167 (new_state []) =
  Ret (u "<sup><a href=""#noterefr"">§</a></sup> <sup><a href=""#noterefs"">§</a></sup>") (new_state []).
Proof. vm_compute. reflexivity. Qed.
