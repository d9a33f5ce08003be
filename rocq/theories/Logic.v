(** Program logics for the monad of the model, closed under the operations of the
    parser.  One walk over the whole program ([ProofWalk.v]) gives every such logic. *)
From Coq Require Import ZArith.
From Verif Require Import Str Unicode Regex RegexParse RegexSnips RegexTheory RegexGroups Lib ModelBase ModelHtml ModelUrl
  ModelAttrs ModelInline ModelParser.

(** The uids whose patterns may be in the cache. *)
Class uids := known : str -> Prop.
(** Panics that a document can cause.  A uid with characters that are special in
    patterns can also make the patterns that contain it fail, or shift their groups. *)
Definition bad {K : uids} (T : textile) (p : site) : Prop :=
  p = UnknownAlign \/ p = BadSlice \/ p = BadNumber \/ p = Overflow \/ (p = UnknownEntity /\ t_restricted T = true)
  \/ ((exists uid, known uid /\ uid_plain uid = false) /\ p <> BorrowError).

(** The operations on the state that belong together. *)
Definition span_bracket (T : textile) (text : str) (body : M str) : M str :=
  modify (fun s => set_span_depth (ps_span_depth s + 1) s) ;;;
  s <- get ;;
  text <- (if ps_span_depth s <=? t_max_span_depth T then body else ret text) ;;
  modify (fun s => set_span_depth (ps_span_depth s - 1) s) ;;;
  ret text.

Definition footnote_op (T : textile) (match_id : str) : M (list (str * str) * str) :=
  s <- get ;;
  atts <- (if has_key match_id (ps_footnotes s) then ret [(u "class", u "footnote")]
           else
             fn_id <- new_id T ;;
             modify (fun s => set_footnotes (im_insert match_id fn_id (ps_footnotes s)) s) ;;;
             ret [(u "class", u "footnote"); (u "id", u "fnrev" ++ fn_id)]) ;;
  s <- get ;;
  fn_id <- of_opt MissingKey (assoc match_id (ps_footnotes s)) ;;
  ret (atts, fn_id).

Definition noteref_op (T : textile) (label : str) : M (str * str * str) :=
  s <- get ;;
  num <- match match assoc label (ps_notes s) with Some n => n_seq n | None => None end with
         | Some num => ret num
         | None =>
             let num := dec (ps_note_index s) in
             modify (fun s => set_note_index (ps_note_index s + 1)
                                (set_notes (bt_insert label (mk_note [] None None None (Some num) []) (ps_notes s)) s)) ;;;
             ret num
         end ;;
  refid <- new_id T ;;
  s <- get ;;
  nt <- of_opt MissingKey (assoc label (ps_notes s)) ;;
  id <- (if is_empty (n_id nt) then new_id T else ret []) ;;
  modify (fun s => set_notes
    (bt_insert label (mk_note (if is_empty (n_id nt) then id else n_id nt)
                              (n_content nt) (n_link nt) (n_attrs nt) (n_seq nt)
                              (n_refids nt ++ [refid])) (ps_notes s)) s) ;;;
  ret (num, refid, id).

Definition declare_op (T : textile) (label : str) : M unit :=
  s <- get ;;
  if has_key label (ps_notes s) then ret tt
  else id <- new_id T ;;
       modify (fun s => set_notes (bt_insert label (mk_note id None None None None []) (ps_notes s)) s).

Definition define_op (label content link atts : str) : M unit :=
  s <- get ;;
  match assoc label (ps_notes s) with
  | None => ret tt
  | Some nt =>
      match n_link nt with
      | Some _ => ret tt
      | None =>
          modify (fun s => set_notes
            (bt_insert label (mk_note (n_id nt) (Some content) (if is_empty link then None else Some link)
                                      (Some atts) (n_seq nt) (n_refids nt)) (ps_notes s)) s)
      end
  end.

Definition rekey_op : M unit :=
  modify (fun s =>
    match ps_notes s with
    | [] => s
    | _ => let '(o, unref) := fold_left rekey (ps_notes s) ([], ps_unref s) in
           set_unref unref (set_notes o s)
    end).

Record ops {K : uids} (W : world) (T : textile) (L : forall A, M A -> Prop) : Prop := mk_ops {
  o_ret : forall A (a : A), L A (ret a);
  o_bind : forall A B (m : M A) (k : A -> M B), L A m -> (forall a, L B (k a)) -> L B (bind m k);
  o_ext : forall A (m m' : M A), (forall s, m' s = m s) -> L A m -> L A m';
  o_panic : forall A p, bad T p -> L A (panic p);
  o_diverge : forall A, L A diverge;
  o_get : forall A (k : pstate -> M A), (forall s c, k (set_cache c s) = k s) -> (forall s, L A (k s)) -> L A (bind get k);
  o_shelve : forall t, L str (shelve T t);
  o_shelve_url : forall x, L str (shelve_url W T x);
  o_store_tags : forall a b, L _ (store_tags T a b);
  o_new_id : L str (new_id T);
  o_urlref : forall flag url, L unit (modify (fun s => set_urlrefs (im_insert flag (Raw url) (ps_urlrefs s)) s));
  o_http : forall url, t_get_sizes T = true -> is_valid_url W T url = true -> is_relative (url_parse W url) = false ->
    L unit (modify (fun s => set_http (ps_http s ++ [url]) s));
  o_ol : forall tl v, L unit (modify (fun s => set_ol_starts (im_insert tl v (ps_ol_starts s)) s));
  o_nl : forall i r, L unit (modify (fun s => set_nl_cache (im_insert i r (ps_nl_cache s)) s));
  o_span : forall text body, L str body -> L str (span_bracket T text body);
  o_footnote : forall id, L _ (footnote_op T id);
  o_noteref : forall label, L _ (noteref_op T label)
}.
(** Only blocks define notes. *)
Record defs (T : textile) (L : forall A, M A -> Prop) : Prop := mk_defs {
  o_declare : forall label, L _ (declare_op T label);
  o_define : forall label content link atts, L _ (define_op label content link atts)
}.

(** The use of a cached pattern: [L] is the logic while the cache is borrowed. *)
Definition with_cache {A B} (line : N) (tag : str) (mk : option rx) (body : rx -> M A) (k : A -> M B) : M B :=
  acquire ;;; (p <- cached line tag mk ;; (x <- body p ;; (release ;;; k x))).
Definition cached_key (line : N) (tag : str) (pat : str -> option rx) : Prop :=
  (line, tag, pat) = (413, [], url_token_re) \/
  (line, tag, pat) = (1608, [], ospan_token_re) \/
  (line, tag, pat) = (1619, [], cspan_token_re) \/
  (line, tag, pat) = (1266, [], link_re) \/
  (line, pat) = (1060, fun _ => tag_br_re tag).
Definition cache_rule {K : uids} (T : textile) (L G : forall A, M A -> Prop) : Prop :=
  forall A B line tag pat (body : rx -> M A) (k : A -> M B), cached_key line tag pat ->
    (forall uid r, known uid -> pat uid = Some r -> L A (body r)) -> (pat (t_uid T) = None -> bad T BadRegex) ->
    (forall x, G B (k x)) -> G B (with_cache line tag (pat (t_uid T)) body k).
