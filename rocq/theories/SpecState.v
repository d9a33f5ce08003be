(** Vocabulary for the histories of one parser value and for what a parse collects:
    placeholders, footnotes, notes and requests. *)
From Verif Require Import Str Unicode ModelBase ModelParser SpecParse.

(** ** Histories *)
(** A [Textile] value is its settings and its pattern cache. *)
Inductive event := Configure (c : setting) | Parse (text : str).
Definition value_after (W : world) (fuel : nat) (v : textile * cache) (e : event) : option (textile * cache) :=
  match e with
  | Configure c => Some (call c (fst v), snd v)
  | Parse text => match parse W (fst v) fuel (snd v) text with
                  | Ret _ s => Some (fst v, ps_cache s)
                  | _ => None
                  end
  end.
(** The value after some calls, when every [parse] among them returned. *)
Fixpoint history (W : world) (fuel : nat) (v : textile * cache) (l : list event) : option (textile * cache) :=
  match l with
  | [] => Some v
  | e :: l' => match value_after W fuel v e with Some v' => history W fuel v' l' | None => None end
  end.
(** No parse before a change of the uid. *)
Definition uid_first (l : list event) : Prop :=
  forall l1 b l2 text, l = l1 ++ Configure (SetUid b) :: l2 -> ~ In (Parse text) l1.

(** What the caller sees of a parse. *)
Definition seen (r : res str) : res str :=
  match r with Ret html _ => Ret html (new_state []) | Panic p => Panic p | Diverge => Diverge end.

(** ** Placeholders *)
(** The text of the placeholder [i] of a fragment. *)
Definition fragment_token (T : textile) (i : N) : str := t_uid T ++ dec i ++ u ":shelve".
(** [ns] are the numbers given to the fragments, in order; URLs and tags are stored
    under their number.  All numbers given so far are different, and there are as many
    as the counter says, so none was given twice and nothing was overwritten. *)
Definition numbered (T : textile) (ns : list N) (s : pstate) : Prop :=
  map fst (ps_shelf s) = map (fragment_token T) ns /\
  NoDup (ns ++ map fst (ps_ref_cache s)) /\
  Forall (fun i => 1 <= i <= ps_ref_index s) (ns ++ map fst (ps_ref_cache s)) /\
  N.of_nat (List.length (ns ++ map fst (ps_ref_cache s))) = ps_ref_index s.

(** ** Footnotes *)
(** Different numbers have different ids, all made from the counter. *)
Definition footnotes_ok (T : textile) (s : pstate) : Prop :=
  NoDup (map fst (ps_footnotes s)) /\ NoDup (map snd (ps_footnotes s)) /\
  Forall (fun id => exists i, 1 <= i <= ps_link_index s /\ id = t_link_prefix T ++ dec i) (map snd (ps_footnotes s)).

(** ** Notes *)
(** [order] lists the labels in the order of their first reference. *)
Definition notes_ok (order : list str) (s : pstate) : Prop :=
  NoDup order /\
  ps_note_index s = 1 + N.of_nat (List.length order) /\
  (forall k label, nth_error order k = Some label ->
     exists nt, assoc label (ps_notes s) = Some nt /\ n_seq nt = Some (dec (1 + N.of_nat k))) /\
  (forall label nt num, assoc label (ps_notes s) = Some nt -> n_seq nt = Some num ->
     exists k, nth_error order k = Some label /\ num = dec (1 + N.of_nat k)).

(** ** Requests *)
(** A URL with a scheme that the settings allow. *)
Definition requestable (W : world) (T : textile) (url : str) : Prop :=
  exists scheme rest, w_parse W url = Some (scheme, rest) /\
  (scheme = [] \/ In scheme (if t_restricted T then [u "http"; u "https"; u "ftp"; u "mailto"]
                             else [u "http"; u "https"; u "ftp"; u "mailto"; u "file"; u "tel"; u "callto"; u "sftp"; u "data"])).

(** ** The size probe *)
(** [data] is what the first [i] reads gave: the i-th read is offered the room left in
    a buffer of 1024 bytes and gives at most that many. *)
Inductive reads (W : world) (url : str) : nat -> list N -> Prop :=
| reads_start : reads W url 0 []
| reads_more i data bytes : reads W url i data -> w_read W url i (1024 - List.length data) = Some bytes ->
    reads W url (S i) (data ++ firstn (1024 - List.length data) bytes).
(** Two worlds that no probe of at most 1024 bytes can tell apart. *)
Definition same_within (W W' : world) (url : str) : Prop :=
  w_get W url = w_get W' url /\
  (forall i room, (i <= 1024)%nat -> (room <= 1024)%nat -> option_map (firstn room) (w_read W url i room) = option_map (firstn room) (w_read W' url i room)) /\
  (forall data, (List.length data <= 1024)%nat -> w_info W data = w_info W' data).

(** ** What references look like *)
(** No character that is special in an attribute value. *)
Definition attr_safe (s : str) : Prop := Forall (fun c => ~ In c [9; 10; 13; 34; 38; 60; 62]) s.
Definition footnote_html (n id : str) (first nolink : bool) (space : str) : str :=
  u "<sup class=""footnote""" ++ (if first then u " id=""fnrev" ++ id ++ u """" else []) ++ u ">" ++
  (if nolink then n else u "<a href=""#fn" ++ id ++ u """>" ++ n ++ u "</a>") ++ u "</sup>" ++ space.
(** [order'] is [order] after a reference to [label]. *)
Definition referenced (order : list str) (label : str) (order' : list str) : Prop :=
  (In label order /\ order' = order) \/ (~ In label order /\ order' = order ++ [label]).
Definition note_html (num anchor id : str) (nolink : bool) : str :=
  let mark := u "<span id=""noteref" ++ anchor ++ u """>" ++ num ++ u "</span>" in
  if nolink then mark else u "<a href=""#note" ++ id ++ u """>" ++ mark ++ u "</a>".
