(** C01, C06, C07, C28, C30, C36, C44, C47, C48: what a parse keeps in its state. *)
From Coq Require Import ZArith.
From Verif Require Import Str Unicode Regex RegexSnips ModelBase ModelHtml ModelInline ModelParser Samples SpecParse SpecState
  Logic ProofState ProofMemory ProofCache ProofSpan ProofStateEx.

(** ** C01: parse never panics.
    False: each of these documents makes it panic. *)
Theorem C01_align_refuted : outcome T0 (u "p((-(. x") = Panic UnknownAlign.
Proof. vm_compute. reflexivity. Qed.
Print Assumptions C01_align_refuted.
Theorem C01_slice_refuted : outcome T0 (u "* привет" ++ nl ++ u "мир") = Panic BadSlice.
Proof. vm_compute. reflexivity. Qed.
Print Assumptions C01_slice_refuted.
Theorem C01_overflow_refuted : outcome T0 (u "#18446744073709551615 a") = Panic Overflow.
Proof. vm_compute. reflexivity. Qed.
Print Assumptions C01_overflow_refuted.
Theorem C01_number_refuted : outcome T0 (u "x textileRef:abctextileRef:abc::99999999999999999999:ospan y") = Panic BadNumber.
Proof. vm_compute. reflexivity. Qed.
Print Assumptions C01_number_refuted.
Theorem C01_entity_refuted : outcome (set_restricted true T0) (u """a"":http://x/?a=1&b=2") = Panic UnknownEntity.
Proof. vm_compute. reflexivity. Qed.
Print Assumptions C01_entity_refuted.
Theorem C01_uid_refuted : outcome (set_uid (u "(") T0) (u "a") = Panic BadRegex.
Proof. vm_compute. reflexivity. Qed.
Print Assumptions C01_uid_refuted.
(** These are all: after any history of calls, with uids that have no character which is
    special in patterns, a parse panics at no other place (and at the entity only in
    restricted mode). *)
Theorem C01_panics_partial : forall W fuel id l T c text p,
  uid_plain (uid_of id) = true -> (forall b, In (Configure (SetUid b)) l -> uid_plain (uid_of b) = true) ->
  history W fuel (default_textile id, []) l = Some (T, c) -> parse W T fuel c text = Panic p ->
  p = UnknownAlign \/ p = BadSlice \/ p = BadNumber \/ p = Overflow \/ (p = UnknownEntity /\ t_restricted T = true).
Proof. exact history_panics. Qed.
Print Assumptions C01_panics_partial.
Example C01_example : uid_plain (uid_of (u "0123456789abcdef")) = true.
Proof. vm_compute. reflexivity. Qed.

(** ** C06: parse is history independent.
    False when the uid is changed between two parses: the cached patterns keep the old one. *)
Theorem C06_history_refuted : exists l T c, history W0 60 (T0, []) l = Some (T, c) /\
  seen (parse W0 T 60 c (u "*a*")) <> seen (parse W0 T 60 [] (u "*a*")).
Proof. exact history_refuted. Qed.
Print Assumptions C06_history_refuted.
(** It holds for every history which sets the uid before the first parse. *)
Theorem C06_history_partial : forall W fuel T l T' c' text, uid_first l -> history W fuel (T, []) l = Some (T', c') ->
  seen (parse W T' fuel c' text) = seen (parse W T' fuel [] text).
Proof. exact history_independent. Qed.
Print Assumptions C06_history_partial.
Example C06_example : let l := [Configure (SetUid (u "x")); Parse (u """a"":http://b"); Configure (SetRestricted true); Parse (u "_a_")] in
  uid_first l /\ exists T c, history W0 60 (T0, []) l = Some (T, c) /\ c <> [] /\ t_restricted T = true.
Proof. exact history_example. Qed.

(** ** C07: the shared pattern cache is never borrowed twice *)
Theorem C07_no_borrow_error : forall W fuel T l T' c' text, history W fuel (T, []) l = Some (T', c') ->
  parse W T' fuel c' text <> Panic BorrowError.
Proof. exact history_no_borrow. Qed.
Print Assumptions C07_no_borrow_error.

(** ** C28: footnote references and ids *)
(** A reference uses the id of its number; it has an id attribute exactly when it is the
    first; a new id is no other footnote's. *)
Theorem C28_reference : forall T h s html s', attr_safe (t_link_prefix T) -> footnotes_ok T s -> f_footnote_id T h s = Ret html s' ->
  exists n id space, cap_opt 1 h = Some n /\ cap_opt 3 h = Some space /\ footnotes_ok T s' /\
  assoc n (ps_footnotes s') = Some id /\
  (assoc n (ps_footnotes s) = None -> ~ In id (map snd (ps_footnotes s))) /\
  (assoc n (ps_footnotes s) <> None -> s' = s) /\
  html = footnote_html n id (negb (has_key n (ps_footnotes s))) (seqb (cap_or 2 h) (u "!")) space.
Proof. exact footnote_reference. Qed.
Print Assumptions C28_reference.
(** Whatever a piece of text contains, processing it only adds footnotes. *)
Theorem C28_kept : forall W T fuel n text s t s', footnotes_ok T s -> ps_borrowed s = false -> @cache_ok (own T) (ps_cache s) ->
  graf_n W T fuel n text s = Ret t s' -> footnotes_ok T s' /\ exists l, ps_footnotes s' = ps_footnotes s ++ l.
Proof. exact graf_footnotes_kept. Qed.
Print Assumptions C28_kept.
(** At the end of every parse different numbers have different ids. *)
Theorem C28_distinct : forall W T fuel text html s, parse W T fuel [] text = Ret html s -> footnotes_ok T s.
Proof. exact parse_footnotes_ok. Qed.
Print Assumptions C28_distinct.
Example C28_example : html_of T0 (u "a[1] b[2] c[1]") =
  Some (u "<p>a<sup class=""footnote"" id=""fnrevabc-1""><a href=""#fnabc-1"">1</a></sup> b<sup class=""footnote"" id=""fnrevabc-2""><a href=""#fnabc-2"">2</a></sup> c<sup class=""footnote""><a href=""#fnabc-1"">1</a></sup></p>").
Proof. vm_compute. reflexivity. Qed.

(** ** C30: notes are numbered by first reference *)
Theorem C30_reference : forall T h order s html s', notes_ok order s -> f_parse_note_refs T h s = Ret html s' ->
  exists label order' k i id attrs, cap_opt 2 h = Some label /\
  referenced order label order' /\ nth_error order' k = Some label /\ notes_ok order' s' /\
  ps_link_index s < i <= ps_link_index s' /\
  html = generate_tag (u "sup") (Some (note_html (dec (1 + N.of_nat k)) (t_link_prefix T ++ dec i) id (seqb (cap_or 3 h) (u "!")))) attrs.
Proof. exact note_reference. Qed.
Print Assumptions C30_reference.
(** Whatever a piece of text contains, processing it only adds labels at the end, and
    never takes back a number used for an anchor. *)
Theorem C30_kept : forall W T fuel n text order s t s', notes_ok order s -> ps_borrowed s = false -> @cache_ok (own T) (ps_cache s) ->
  graf_n W T fuel n text s = Ret t s' -> ps_link_index s <= ps_link_index s' /\ exists more, notes_ok (order ++ more) s'.
Proof. exact graf_notes_kept. Qed.
Print Assumptions C30_kept.
Theorem C30_document : forall W T fuel n text t s, block W T (graf_n W T fuel n) text (new_state []) = Ret t s ->
  exists order, notes_ok order s.
Proof. exact block_notes_ok. Qed.
Print Assumptions C30_document.
Example C30_example : html_of T0 (u "a[#x] b[#y] c[#x]") =
  Some (u "<p>a<sup><a href=""#noteabc-2""><span id=""noterefabc-1"">1</span></a></sup> b<sup><a href=""#noteabc-4""><span id=""noterefabc-3"">2</span></a></sup> c<sup><a href=""#note""><span id=""noterefabc-5"">1</span></a></sup></p>").
Proof. vm_compute. reflexivity. Qed.

(** ** C36: placeholders are never reused *)
Theorem C36_numbers : forall W T fuel text html s, parse W T fuel [] text = Ret html s -> exists ns, numbered T ns s.
Proof. exact parse_numbers. Qed.
Print Assumptions C36_numbers.
(** So the stored fragments have different placeholder texts. *)
Theorem C36_fragments : forall T ns s, numbered T ns s -> NoDup (map fst (ps_shelf s)).
Proof. exact numbered_keys. Qed.
Print Assumptions C36_fragments.
(** Nothing stored is changed or removed later. *)
Theorem C36_kept : forall W T fuel n text ns s t s', numbered T ns s -> ps_borrowed s = false -> @cache_ok (own T) (ps_cache s) ->
  graf_n W T fuel n text s = Ret t s' ->
  (exists ns', numbered T ns' s') /\ (exists l, ps_shelf s' = ps_shelf s ++ l) /\ (exists l, ps_ref_cache s' = ps_ref_cache s ++ l).
Proof. exact graf_numbers_kept. Qed.
Print Assumptions C36_kept.
Example C36_example : match parse W0 T0 60 [] (u "*a* ""b"":http://c @d@ _e_") with
  | Ret _ s => (ps_ref_index s, List.length (ps_shelf s), List.length (ps_ref_cache s)) = (7, 2%nat, 5%nat)
  | _ => False end.
Proof. vm_compute. reflexivity. Qed.

(** ** C44: span nesting is bounded *)
Theorem C44_depth_restored : forall T text s t s', span T text s = Ret t s' -> ps_span_depth s' = ps_span_depth s.
Proof. exact span_level. Qed.
Print Assumptions C44_depth_restored.
Theorem C44_beyond : forall T text s, t_max_span_depth T <= ps_span_depth s -> span T text s = Ret text s.
Proof. exact span_beyond. Qed.
Print Assumptions C44_beyond.
(** Allowing more nested calls than the limit changes nothing, and none is cut off. *)
Theorem C44_bounded : forall T n text s, (N.to_nat (t_max_span_depth T) < n)%nat -> span_n T n text s = span T text s.
Proof. exact span_bounded. Qed.
Print Assumptions C44_bounded.
Theorem C44_ends : forall T text s, span T text s <> Diverge.
Proof. exact span_ends. Qed.
Print Assumptions C44_ends.
Theorem C44_limit : forall cs id, t_max_span_depth (calls cs (default_textile id)) = 5.
Proof. exact depth_limit. Qed.
Print Assumptions C44_limit.
Example C44_example : html_of T0 (u "*_-+^~%a%~^+-_*") <> None /\
  html_of T0 (u "*_-+^ab^+-_*") = Some (u "<p><strong><em><del><ins><sup>ab</sup></ins></del></em></strong></p>").
Proof. vm_compute. split; [discriminate|reflexivity]. Qed.

(** ** C47: no network access unless requested *)
Theorem C47_requests : forall W T fuel text html s, parse W T fuel [] text = Ret html s ->
  Forall (fun url => t_get_sizes T = true /\ requestable W T url) (ps_http s).
Proof. exact parse_requests. Qed.
Print Assumptions C47_requests.
Theorem C47_off : forall W T fuel text html s, t_get_sizes T = false -> parse W T fuel [] text = Ret html s -> ps_http s = [].
Proof. exact parse_no_request. Qed.
Print Assumptions C47_off.
Example C47_example : match parse W0 (set_getting_image_size true T0) 60 [] (u "!http://a/b.png! !c.png!") with
  | Ret _ s => ps_http s = [u "http://a/b.png"] | _ => False end.
Proof. vm_compute. reflexivity. Qed.

(** ** C48: image probing reads at most 1 KiB *)
Theorem C48_ends : forall W url s, exists size, get_image_size W url s = Ret size (set_http (ps_http s ++ [url]) s).
Proof. exact probe_ends. Qed.
Print Assumptions C48_ends.
Theorem C48_found : forall W url s size s', get_image_size W url s = Ret (Some size) s' ->
  exists j data, reads W url j data /\ (List.length data <= 1024)%nat /\ w_info W data = Some size.
Proof. exact probe_found. Qed.
Print Assumptions C48_found.
(** Bytes beyond the first 1024 and reads beyond the first 1025 have no influence. *)
Theorem C48_local : forall W W' url s, same_within W W' url -> get_image_size W url s = get_image_size W' url s.
Proof. exact probe_local. Qed.
Print Assumptions C48_local.
Example C48_example :
  let W := mk_world (fun _ => None) (fun _ => None) (fun _ => true) (fun _ i _ => Some (repeat 7 600)) (fun data => if Nat.leb 1000 (List.length data) then Some (3, 4)%Z else None) in
  match get_image_size W (u "x") (new_state []) with Ret size _ => size = Some (3, 4)%Z | _ => False end.
Proof. vm_compute. reflexivity. Qed.
