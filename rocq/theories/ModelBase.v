(** Settings, parser state and the effect monad of the model. *)
From Coq Require Import ZArith.
From Verif Require Import Str Unicode Regex RegexParse.

(** [HtmlKind], src/parser.rs:1817-1820 *)
Inductive html_kind := XHTML | HTML5.

(** [Textile], src/parser.rs:1836-1852.  [regex_cache] is kept in the parser
    state below; [dyn_glyph_replacers] holds one pattern, which is constant, and
    a replacement template, kept in [t_dyn]; the sanitizer configurator is the
    function "clean the text with this configuration". *)
Record textile := mk_textile {
  t_uid : str;
  t_link_prefix : str;
  t_restricted : bool;
  t_raw_block : bool;
  t_align_class : option bool;
  t_block_tags : bool;
  t_lite : bool;
  t_noimage : bool;
  t_get_sizes : bool;
  t_max_span_depth : N;
  t_html : html_kind;
  t_rel : option str;
  t_dyn : str;
  t_sanitize : option (str -> str)
}.

(** The outside world: the [url] crate, HTTP and image headers. *)
Record world := mk_world {
  (** [url::Url::parse]: scheme and serialization of an absolute URL *)
  w_parse : str -> option (str * str);
  (** [BASE.join(url)], serialized (src/urlutils.rs:35-49) *)
  w_join : str -> option str;
  (** [reqwest::blocking::get] succeeds *)
  w_get : str -> bool;
  (** the i-th [read] of the response of a URL, given the room left: [None] is an error *)
  w_read : str -> nat -> nat -> option (list N);
  (** [imageinfo::ImageInfo::from_raw_data]: width and height *)
  w_info : list N -> option (Z * Z)
}.

(** [NoteInfo], src/parser.rs:149-158 *)
Record note := mk_note {
  n_id : str;
  n_content : option str;
  n_link : option str;
  n_attrs : option str;
  n_seq : option str;
  n_refids : list str
}.

(** [UrlString], src/urlutils.rs:117-121 *)
Inductive url_string := Normalized (s : str) | Raw (s : str).

(** A pattern cache entry: source line and tag (src/parser.rs:1849). *)
Definition cache := list ((N * str) * rx).

(** [ParserState], src/parser.rs:182-196, together with the pattern cache of the
    [Textile] value, its [RefCell] borrow flag, and the HTTP requests made. *)
Record pstate := mk_ps {
  ps_notes : list (str * note);
  ps_footnotes : list (str * str);
  ps_shelf : list (str * str);
  ps_urlrefs : list (str * url_string);
  ps_note_index : N;
  ps_link_index : N;
  ps_ref_index : N;
  ps_span_depth : N;
  ps_ref_cache : list (N * str);
  ps_ol_starts : list (str * N);
  ps_unref : list (str * note);
  ps_nl_cache : list (str * str);
  ps_cache : cache;
  ps_borrowed : bool;
  ps_http : list str
}.

(** Field updates. *)
Definition set_notes v s := mk_ps v (ps_footnotes s) (ps_shelf s) (ps_urlrefs s) (ps_note_index s) (ps_link_index s) (ps_ref_index s) (ps_span_depth s) (ps_ref_cache s) (ps_ol_starts s) (ps_unref s) (ps_nl_cache s) (ps_cache s) (ps_borrowed s) (ps_http s).
Definition set_footnotes v s := mk_ps (ps_notes s) v (ps_shelf s) (ps_urlrefs s) (ps_note_index s) (ps_link_index s) (ps_ref_index s) (ps_span_depth s) (ps_ref_cache s) (ps_ol_starts s) (ps_unref s) (ps_nl_cache s) (ps_cache s) (ps_borrowed s) (ps_http s).
Definition set_shelf v s := mk_ps (ps_notes s) (ps_footnotes s) v (ps_urlrefs s) (ps_note_index s) (ps_link_index s) (ps_ref_index s) (ps_span_depth s) (ps_ref_cache s) (ps_ol_starts s) (ps_unref s) (ps_nl_cache s) (ps_cache s) (ps_borrowed s) (ps_http s).
Definition set_urlrefs v s := mk_ps (ps_notes s) (ps_footnotes s) (ps_shelf s) v (ps_note_index s) (ps_link_index s) (ps_ref_index s) (ps_span_depth s) (ps_ref_cache s) (ps_ol_starts s) (ps_unref s) (ps_nl_cache s) (ps_cache s) (ps_borrowed s) (ps_http s).
Definition set_note_index v s := mk_ps (ps_notes s) (ps_footnotes s) (ps_shelf s) (ps_urlrefs s) v (ps_link_index s) (ps_ref_index s) (ps_span_depth s) (ps_ref_cache s) (ps_ol_starts s) (ps_unref s) (ps_nl_cache s) (ps_cache s) (ps_borrowed s) (ps_http s).
Definition set_link_index v s := mk_ps (ps_notes s) (ps_footnotes s) (ps_shelf s) (ps_urlrefs s) (ps_note_index s) v (ps_ref_index s) (ps_span_depth s) (ps_ref_cache s) (ps_ol_starts s) (ps_unref s) (ps_nl_cache s) (ps_cache s) (ps_borrowed s) (ps_http s).
Definition set_ref_index v s := mk_ps (ps_notes s) (ps_footnotes s) (ps_shelf s) (ps_urlrefs s) (ps_note_index s) (ps_link_index s) v (ps_span_depth s) (ps_ref_cache s) (ps_ol_starts s) (ps_unref s) (ps_nl_cache s) (ps_cache s) (ps_borrowed s) (ps_http s).
Definition set_span_depth v s := mk_ps (ps_notes s) (ps_footnotes s) (ps_shelf s) (ps_urlrefs s) (ps_note_index s) (ps_link_index s) (ps_ref_index s) v (ps_ref_cache s) (ps_ol_starts s) (ps_unref s) (ps_nl_cache s) (ps_cache s) (ps_borrowed s) (ps_http s).
Definition set_ref_cache v s := mk_ps (ps_notes s) (ps_footnotes s) (ps_shelf s) (ps_urlrefs s) (ps_note_index s) (ps_link_index s) (ps_ref_index s) (ps_span_depth s) v (ps_ol_starts s) (ps_unref s) (ps_nl_cache s) (ps_cache s) (ps_borrowed s) (ps_http s).
Definition set_ol_starts v s := mk_ps (ps_notes s) (ps_footnotes s) (ps_shelf s) (ps_urlrefs s) (ps_note_index s) (ps_link_index s) (ps_ref_index s) (ps_span_depth s) (ps_ref_cache s) v (ps_unref s) (ps_nl_cache s) (ps_cache s) (ps_borrowed s) (ps_http s).
Definition set_unref v s := mk_ps (ps_notes s) (ps_footnotes s) (ps_shelf s) (ps_urlrefs s) (ps_note_index s) (ps_link_index s) (ps_ref_index s) (ps_span_depth s) (ps_ref_cache s) (ps_ol_starts s) v (ps_nl_cache s) (ps_cache s) (ps_borrowed s) (ps_http s).
Definition set_nl_cache v s := mk_ps (ps_notes s) (ps_footnotes s) (ps_shelf s) (ps_urlrefs s) (ps_note_index s) (ps_link_index s) (ps_ref_index s) (ps_span_depth s) (ps_ref_cache s) (ps_ol_starts s) (ps_unref s) v (ps_cache s) (ps_borrowed s) (ps_http s).
Definition set_cache v s := mk_ps (ps_notes s) (ps_footnotes s) (ps_shelf s) (ps_urlrefs s) (ps_note_index s) (ps_link_index s) (ps_ref_index s) (ps_span_depth s) (ps_ref_cache s) (ps_ol_starts s) (ps_unref s) (ps_nl_cache s) v (ps_borrowed s) (ps_http s).
Definition set_borrowed v s := mk_ps (ps_notes s) (ps_footnotes s) (ps_shelf s) (ps_urlrefs s) (ps_note_index s) (ps_link_index s) (ps_ref_index s) (ps_span_depth s) (ps_ref_cache s) (ps_ol_starts s) (ps_unref s) (ps_nl_cache s) (ps_cache s) v (ps_http s).
Definition set_http v s := mk_ps (ps_notes s) (ps_footnotes s) (ps_shelf s) (ps_urlrefs s) (ps_note_index s) (ps_link_index s) (ps_ref_index s) (ps_span_depth s) (ps_ref_cache s) (ps_ol_starts s) (ps_unref s) (ps_nl_cache s) (ps_cache s) (ps_borrowed s) v.

(** [ParserState::new], src/parser.rs:200-216 *)
Definition new_state (c : cache) : pstate :=
  mk_ps [] [] [] [] 1 0 0 0 [] [] [] [] c false [].

(** ** Results and the monad. *)
Inductive site :=
| UnreachableCode      (* unreachable!, other than the next two *)
| UnknownAlign         (* unreachable! of src/block.rs:228 *)
| UnknownEntity        (* unreachable! of src/htmltools.rs:61 *)
| MissingGroup         (* &cap[n] of a group that took no part *)
| BadSlice             (* string slice out of bounds or inside a character *)
| BadNumber            (* expect on a failed number conversion *)
| Overflow             (* integer overflow (panics in debug builds) *)
| BadRegex             (* expect on a failed regex compilation *)
| BorrowError          (* RefCell already borrowed *)
| BadCounter           (* CharCounter misuse *)
| MissingKey.          (* indexing a map with a missing key *)

Inductive res (A : Type) := Ret (a : A) (s : pstate) | Panic (p : site) | Diverge.
Arguments Ret {A} a s.
Arguments Panic {A} p.
Arguments Diverge {A}.

Definition M (A : Type) := pstate -> res A.

Definition ret {A} (a : A) : M A := fun s => Ret a s.
Definition bind {A B} (x : M A) (f : A -> M B) : M B :=
  fun s => match x s with
           | Ret a s' => f a s'
           | Panic p => Panic p
           | Diverge => Diverge
           end.
Definition panic {A} (p : site) : M A := fun _ => Panic p.
Definition diverge {A} : M A := fun _ => Diverge.
Definition get : M pstate := fun s => Ret s s.
Definition put (s : pstate) : M unit := fun _ => Ret tt s.
Definition modify (f : pstate -> pstate) : M unit := fun s => Ret tt (f s).
Definition gets {A} (f : pstate -> A) : M A := fun s => Ret (f s) s.
Definition of_opt {A} (p : site) (o : option A) : M A :=
  match o with Some a => ret a | None => panic p end.

Declare Scope m_scope.
Delimit Scope m_scope with m.
Notation "x <- e ;; k" := (bind e (fun x => k))
  (at level 61, e at next level, right associativity) : m_scope.
Notation "' p <- e ;; k" := (bind e (fun x => match x with p => k end))
  (at level 61, p pattern, e at next level, right associativity) : m_scope.
Notation "e ;;; k" := (bind e (fun _ => k)) (at level 61, right associativity) : m_scope.
Open Scope m_scope.

Fixpoint mapM {A B} (f : A -> M B) (l : list A) : M (list B) :=
  match l with
  | [] => ret []
  | x :: l' => y <- f x ;; ys <- mapM f l' ;; ret (y :: ys)
  end.

Fixpoint foldM {A B} (f : B -> A -> M B) (b : B) (l : list A) : M B :=
  match l with
  | [] => ret b
  | x :: l' => b' <- f b x ;; foldM f b' l'
  end.

(** ** Regex calls with effects. *)
(** [&cap[n]]: panics when the group took no part in the match. *)
Definition capx (n : nat) (h : hit) : M str :=
  match n with
  | O => ret (h_text h)
  | _ => of_opt MissingGroup (cap_text n (h_caps h))
  end.

(** [cap.get(n)], and [unwrap_or_empty(cap.get(n))] (src/regextra.rs:144-146) *)
Definition cap_opt (n : nat) (h : hit) : option str :=
  match n with O => Some (h_text h) | _ => cap_text n (h_caps h) end.
Definition cap_or (n : nat) (h : hit) : str :=
  match cap_opt n h with Some t => t | None => [] end.

(** [Regex::replace_all] with an effectful closure. *)
Definition replace_segM (f : hit -> M str) (g : seg) : M str :=
  match g with Lit c => ret [c] | Hit h => f h end.
Definition replace_allM (r : re) (f : hit -> M str) (text : str) : M str :=
  l <- mapM (replace_segM f) (segs r text) ;; ret (List.concat l).

(** ** Maps. *)
Fixpoint assoc {A} (k : str) (l : list (str * A)) : option A :=
  match l with
  | [] => None
  | (k', v) :: l' => if seqb k' k then Some v else assoc k l'
  end.

Definition has_key {A} (k : str) (l : list (str * A)) : bool :=
  match assoc k l with Some _ => true | None => false end.

(** [IndexMap::insert]: in place for a present key, at the end otherwise. *)
Fixpoint im_insert {A} (k : str) (v : A) (l : list (str * A)) : list (str * A) :=
  match l with
  | [] => [(k, v)]
  | (k', v') :: l' => if seqb k' k then (k, v) :: l' else (k', v') :: im_insert k v l'
  end.

(** [IndexMap::shift_remove] *)
Fixpoint im_remove {A} (k : str) (l : list (str * A)) : list (str * A) :=
  match l with
  | [] => []
  | (k', v') :: l' => if seqb k' k then l' else (k', v') :: im_remove k l'
  end.

(** Lexicographic order of strings (UTF-8 byte order is code point order). *)
Fixpoint str_cmp (a b : str) : comparison :=
  match a, b with
  | [], [] => Eq
  | [], _ => Lt
  | _, [] => Gt
  | x :: a', y :: b' =>
      match x ?= y with
      | Eq => str_cmp a' b'
      | c => c
      end
  end.

(** [BTreeMap::insert], on a list sorted by key. *)
Fixpoint bt_insert {A} (k : str) (v : A) (l : list (str * A)) : list (str * A) :=
  match l with
  | [] => [(k, v)]
  | (k', v') :: l' =>
      match str_cmp k k' with
      | Lt => (k, v) :: l
      | Eq => (k, v) :: l'
      | Gt => (k', v') :: bt_insert k v l'
      end
  end.

(** Maps from numbers ([ref_cache]). *)
Fixpoint assocN {A} (k : N) (l : list (N * A)) : option A :=
  match l with
  | [] => None
  | (k', v) :: l' => if k' =? k then Some v else assocN k l'
  end.

Fixpoint nm_insert {A} (k : N) (v : A) (l : list (N * A)) : list (N * A) :=
  match l with
  | [] => [(k, v)]
  | (k', v') :: l' => if k' =? k then (k, v) :: l' else (k', v') :: nm_insert k v l'
  end.

(** ** The pattern cache: [regex_cache.borrow_mut()] and
    [.entry(line).or_default().entry(tag).or_insert_with(…)].
    The borrow lasts until [release]. *)
Definition acquire : M unit :=
  s <- get ;;
  if ps_borrowed s then panic BorrowError else put (set_borrowed true s).
Definition release : M unit := modify (set_borrowed false).

Fixpoint cache_find (line : N) (tag : str) (c : cache) : option rx :=
  match c with
  | [] => None
  | ((l, t), r) :: c' => if (l =? line) && seqb t tag then Some r else cache_find line tag c'
  end.

Definition cached (line : N) (tag : str) (mk : option rx) : M rx :=
  s <- get ;;
  match cache_find line tag (ps_cache s) with
  | Some r => ret r
  | None =>
      match mk with
      | Some r => put (set_cache (ps_cache s ++ [((line, tag), r)]) s) ;;; ret r
      | None => panic BadRegex
      end
  end.

(** Splitting with [split_with_capture], src/regextra.rs:19-101: the literal
    pieces between the matches, each match followed by the text of its groups
    ([ngroups] of them, all must have taken part). *)
Fixpoint split_go (ngroups : nat) (l : list seg) (acc : str) : option (list str) :=
  match l with
  | [] => Some [rev acc]
  | Lit c :: l' => split_go ngroups l' (c :: acc)
  | Hit h :: l' =>
      let groups := map (fun n => cap_text n (h_caps h)) (seq 1 (ngroups - 1)) in
      if forallb (fun g => match g with Some _ => true | None => false end) groups then
        match split_go ngroups l' [] with
        | Some ps => Some (rev acc :: map (fun g => match g with Some t => t | None => [] end) groups ++ ps)
        | None => None
        end
      else None
  end.

(** [None] models the [unreachable!] of src/regextra.rs:65 *)
Definition split_rx (r : rx) (text : str) : option (list str) :=
  split_go (rx_len r) (segs (rx_re r) text) [].
Definition splitM (r : rx) (text : str) : M (list str) := of_opt UnreachableCode (split_rx r text).

(** Signed decimal ([i64::to_string]). *)
Definition dec_z (z : Z) : str :=
  match z with
  | Zneg p => 45 :: dec (Npos p)
  | _ => dec (Z.to_N z)
  end.
