(** C02, C21, C23, C24, C25, C26, C27, C56, C60: links. *)
From Coq Require Import ZArith.
From Verif Require Import Str Unicode Regex RegexParse RegexSnips RegexTheory RegexGroups ModelBase ModelHtml ModelUrl ModelInline ModelParser
  SpecRegex ProofRegex SpecLinks Samples ProofSpan ProofLinks ProofDiverge.

(** ** C02: parse terminates.
    False: on this document no number of steps is enough. *)
Theorem C02_inches_refuted : forall W fuel, parse W T0 fuel [] (u "It is 5"" by 6"":x") = Diverge.
Proof. exact inches_diverge. Qed.
Print Assumptions C02_inches_refuted.
(** The loop that marks link starts never ends on a text before a double quote and a colon which has one double
    quote, with a space after it, no space at the end and text before it that is not
    indented more than it trails. *)
Theorem C02_marking_refuted : forall T p b, ~ In 34 p -> ~ In 34 b -> p <> [] -> b <> [] ->
  (0 <= piece_delta p)%Z -> (0 < piece_delta b)%Z -> forall fuel s, mark_slice T fuel (p ++ [34] ++ b) s = Diverge.
Proof. exact marking_diverges. Qed.
Print Assumptions C02_marking_refuted.
Example C02_example : (piece_delta (u "It is 5") = 0 /\ piece_delta (u " by 6") = 1)%Z.
Proof. vm_compute. auto. Qed.
(** Rewriting of the marked links always ends: with enough steps it does not run out of them,
    and more steps change nothing. *)
Theorem C02_rewriting_partial : forall W T x, uid_plain (t_uid T) = true -> link_re (t_uid T) = Some x -> forall text s,
  exists N, forall n, (N <= n)%nat -> link_loop W T n x text s = link_loop W T N x text s /\ link_loop W T n x text s <> Diverge.
Proof. exact link_loop_ends. Qed.
Print Assumptions C02_rewriting_partial.

(** ** C27: link recognition terminates *)
Theorem C27_link_loop_ends : forall W T x, uid_plain (t_uid T) = true -> link_re (t_uid T) = Some x -> forall text s,
  exists N, forall n, (N <= n)%nat -> link_loop W T n x text s = link_loop W T N x text s /\ link_loop W T n x text s <> Diverge.
Proof. exact link_loop_ends. Qed.
Print Assumptions C27_link_loop_ends.
Example C27_example : uid_plain (t_uid T0) = true /\
  match link_re (t_uid T0) with
  | Some x => match link_loop W0 T0 3 x (t_uid T0 ++ u "linkStartMarker:""a"":b") (new_state []) with
              | Ret v s' => Some (v, map snd (ps_shelf s'))
              | _ => None
              end
  | None => None
  end = Some (t_uid T0 ++ u "2:shelve", [u "<a href=""textileRef:abc:1:url"">a</a>"]).
Proof. split; vm_compute; reflexivity. Qed.

(** ** C21: only whitelisted URL schemes become links.
    False for the link around an image. *)
Theorem C21_image_link_refuted : html_in W1 (set_restricted true T0) (u "!a.png!:javascript:alert(1)") =
  Some (u "<p><a href=""javascript:alert(1""><img alt="""" src=""a.png"" /></a>)</p>").
Proof. vm_compute. reflexivity. Qed.
Print Assumptions C21_image_link_refuted.
(** A marked link becomes an [<a>] only for an address which is relative or has a whitelisted
    scheme ([lo_linked] of [link_out]), and is put back as text for every other
    ([lo_refused]). *)
Theorem C21_links_partial : forall W T x h s out s', uid_plain (t_uid T) = true -> link_re (t_uid T) = Some x ->
  hit_of (rx_re x) h -> f_link W T h s = Ret out s' ->
  exists pre inner url, h_text h = marked_link (t_uid T) pre inner url /\ (pre = [] \/ pre = [91]) /\
    Forall (fun c => url_stop c = false) url /\ link_out W T pre inner url s out s'.
Proof. exact link_outcome. Qed.
Print Assumptions C21_links_partial.
(** Likewise image markup becomes an [<img>] only for such an address (before un-escaping). *)
Theorem C21_images_partial : forall W T h s out s', f_image W T h s = Ret out s' -> exists url, cap_text 3 (h_caps h) = Some url /\
  (~ scheme_ok T (url_parse W url) /\ out = h_text h /\ s' = s \/
   scheme_ok T (url_parse W url) /\ shelf_token T out /\ exists src dest s1 s2, unrestrict_url T url s1 = Ret src s1 /\
     match cap_text 5 (h_caps h) with
     | None => dest = None
     | Some href => exists x, dest = Some x /\ unrestrict_url T href s2 = Ret x s2
     end /\ imaged W T src dest out s').
Proof. exact image_outcome. Qed.
Print Assumptions C21_images_partial.
Example C21_example : html_in W1 T0 (u """a"":javascript:x ""b"":http://c/ !javascript:y! !d!") =
  Some (u "<p>&#8220;a&#8221;:javascript:x <a href=""http://c/"">b</a> !javascript:y! <img alt="""" src=""d"" /></p>").
Proof. vm_compute. reflexivity. Qed.

(** ** C23: rel is forced on all links.
    False for the link around an image. *)
Theorem C23_image_link_refuted : html_of (set_rel (Some (u "nofollow")) T0) (u "!a.png!:b") =
  Some (u "<p><a href=""b""><img alt="""" src=""a.png"" /></a></p>").
Proof. vm_compute. reflexivity. Qed.
Print Assumptions C23_image_link_refuted.
(** Every other link carries it: a marked link stores nothing, or an [<a>] with the rel. *)
Theorem C23_rel_partial : forall W T x h s out s' rel, uid_plain (t_uid T) = true -> link_re (t_uid T) = Some x ->
  hit_of (rx_re x) h -> f_link W T h s = Ret out s' -> t_rel T = Some rel ->
  s' = s \/
  exists pre' token back attrs text, out = pre' ++ token ++ back /\ assoc token (ps_shelf s') = Some (a_tag attrs text) /\
    assoc (u "rel") attrs = Some rel.
Proof. exact link_rel. Qed.
Print Assumptions C23_rel_partial.
Example C23_example : html_of (set_rel (Some (u "nofollow")) T0) (u """a"":b") = Some (u "<p><a href=""b"" rel=""nofollow"">a</a></p>").
Proof. vm_compute. reflexivity. Qed.

(** ** C24: trailing punctuation of a URL is handed back to the text.
    False: a '>' at the end of the URL which closes no tag is lost, and the punctuation before it stays. *)
Theorem C24_gt_refuted : html_of T0 (u """a"":http://x!>") = Some (u "<p><a href=""http://x!"">a</a></p>").
Proof. vm_compute. reflexivity. Qed.
Print Assumptions C24_gt_refuted.
(** Otherwise the claim holds: here [lost] is nothing or that '>'. *)
Theorem C24_url_cut_partial : forall url kept back pre pre', url_cut url kept back pre pre' ->
  exists lost w, url = kept ++ lost ++ w /\ without_squares w back /\ (lost = [] \/ lost = [62]) /\
  (forall q c, kept = q ++ [c] -> lost = [] -> ~ sentence_mark c).
Proof. exact url_cut_split. Qed.
Print Assumptions C24_url_cut_partial.
(** And every marked link is cut like this. *)
Theorem C24_links_partial : forall W T x h s out s', uid_plain (t_uid T) = true -> link_re (t_uid T) = Some x ->
  hit_of (rx_re x) h -> f_link W T h s = Ret out s' ->
  exists pre inner url, h_text h = marked_link (t_uid T) pre inner url /\ (pre = [] \/ pre = [91]) /\
    Forall (fun c => url_stop c = false) url /\ link_out W T pre inner url s out s'.
Proof. exact link_outcome. Qed.
Print Assumptions C24_links_partial.
Example C24_example : html_of T0 (u """a"":http://x/y?!. ") = Some (u "<p><a href=""http://x/y"">a</a>?!. </p>").
Proof. vm_compute. reflexivity. Qed.

(** ** C25: balanced brackets stay in the URL.
    False for square brackets: text in brackets at the end is cut off before counting. *)
Theorem C25_squares_refuted : html_of T0 (u """a"":http://x/?q[][1]") =
  Some (u "<p><a href=""http://x/?q["">a</a><sup class=""footnote"" id=""fnrevabc-1""><a href=""#fnabc-1"">1</a></sup></p>").
Proof. vm_compute. reflexivity. Qed.
Print Assumptions C25_squares_refuted.
Theorem C25_parens_partial : forall tight q kept back, cut_end tight (q ++ [41]) kept back ->
  (parens_balanced (q ++ [41]) -> kept = q ++ [41] /\ back = []) /\
  (~ parens_balanced (q ++ [41]) -> exists b, back = b ++ [41] /\ cut_end tight q kept b).
Proof. exact cut_end_paren. Qed.
Print Assumptions C25_parens_partial.
(** Square brackets, counting also the text [tight] in brackets that was cut off before. *)
Theorem C25_squares_partial : forall tight q kept back, cut_end tight (q ++ [93]) kept back ->
  (squares_balanced tight (q ++ [93]) -> kept = q ++ [93] /\ back = []) /\
  (~ squares_balanced tight (q ++ [93]) -> cut_end tight q kept back).
Proof. exact cut_end_square. Qed.
Print Assumptions C25_squares_partial.
Example C25_example : html_of T0 (u "(""a"":http://x/y_(z) ""b"":http://x/y) ""c"":http://x/q[1] [""d"":http://x/y]") =
  Some (u "<p>(<a href=""http://x/y_(z)"">a</a> <a href=""http://x/y"">b</a>) <a href=""http://x/q[1]"">c</a> <a href=""http://x/y"">d</a></p>").
Proof. vm_compute. reflexivity. Qed.

(** ** C26: marking link starts changes nothing else.
    False: the text before the first quote may be repeated. *)
Theorem C26_repeated_refuted : html_of T0 (u "a "" b"":url") = Some (u "<p>a <a href=""url"">a &#8220; b</a></p>").
Proof. vm_compute. reflexivity. Qed.
Print Assumptions C26_repeated_refuted.
(** That repetition is the only other change. *)
Theorem C26_marking_partial : forall T fuel text s out s', mark_start_of_links T fuel text s = Ret out s' ->
  s' = s /\ exists slices outs end_, text = join (u """:") (slices ++ [end_]) /\ out = join (u """:") (outs ++ [end_]) /\
    Forall2 (marked (t_uid T ++ u "linkStartMarker:")) slices outs.
Proof. exact marking. Qed.
Print Assumptions C26_marking_partial.
(** And there is none when the text after the last quote does not start with a space. *)
Theorem C26_nearest_partial : forall T fuel a c b s, (0 < fuel)%nat -> ~ In 34 (c :: b) -> is_ws c = false ->
  mark_slice T fuel (a ++ 34 :: c :: b) s = Ret (a ++ t_uid T ++ u "linkStartMarker:""" ++ c :: b) s.
Proof. exact marking_near. Qed.
Print Assumptions C26_nearest_partial.
Example C26_example : mark_start_of_links T0 9 (u "x ""y"":z") (new_state []) =
  Ret (u "x " ++ t_uid T0 ++ u "linkStartMarker:""y"":z") (new_state []).
Proof. vm_compute. reflexivity. Qed.

(** ** C56: character counters *)
Theorem C56_new : forall chars c s, cc_get c (cc_new chars) s = if existsb (N.eqb c) chars then Ret None s else Panic BadCounter.
Proof. exact counter_new. Qed.
Print Assumptions C56_new.
Theorem C56_set : forall c v k s, match cc_set c v k s with
  | Ret k' s' => s' = s /\ cc_get c k s <> Panic BadCounter /\ forall c', cc_get c' k' s = if c' =? c then Ret v s else cc_get c' k s
  | Panic p => p = BadCounter /\ cc_get c k s = Panic BadCounter
  | Diverge => False
  end.
Proof. exact counter_set. Qed.
Print Assumptions C56_set.
Theorem C56_dec : forall c k s, match cc_dec c k s with
  | Ret k' s' => s' = s /\ exists n, cc_get c k s = Ret (Some n) s /\ forall c', cc_get c' k' s = if c' =? c then Ret (Some (N.pred n)) s else cc_get c' k s
  | Panic p => p = BadCounter /\ (cc_get c k s = Panic BadCounter \/ cc_get c k s = Ret None s)
  | Diverge => False
  end.
Proof. exact counter_dec. Qed.
Print Assumptions C56_dec.
Example C56_example : exists k s, cc_set 40 (Some 2) (cc_new [40; 41]) (new_state []) = Ret k s /\ cc_get 40 k s = Ret (Some 2) s /\
  cc_get 41 k s = Ret None s /\ cc_get 42 k s = Panic BadCounter.
Proof. vm_compute. repeat (eexists || split). Qed.

(** ** C60: URL aliases.
    False for an alias with a character that is escaped. *)
Theorem C60_escaped_refuted : html_of T0 (u """x"":a&b" ++ nl ++ nl ++ u "[a&b]http://z.com/") = Some (u "<p><a href=""a&amp;b"">x</a></p>").
Proof. vm_compute. reflexivity. Qed.
Print Assumptions C60_escaped_refuted.
(** The definitions in a text are removed from it and remembered; the last one of an alias wins. *)
Theorem C60_definitions_partial : forall T text s out s', get_refs T text s = Ret out s' ->
  exists lits hits defs, cut (alias_re T) false [] text lits hits /\ text = interleave lits (map h_text hits) /\ out = List.concat lits /\
    Forall2 (alias_def T) hits defs /\
    forall alias, assoc alias (ps_urlrefs s') = match last_def alias defs with Some url => Some (Raw url) | None => assoc alias (ps_urlrefs s) end.
Proof. exact aliases. Qed.
Print Assumptions C60_definitions_partial.
(** The token of a stored address is replaced by the definition of the alias which it is, or by itself. *)
Theorem C60_addresses_partial : forall W h i stored s, cap_text 1 (h_caps h) = Some (dec i) -> i <= u32_max ->
  assocN i (ps_ref_cache s) = Some stored -> retrieve_url_hit W h s = Ret (address W s stored) s.
Proof. exact token_address. Qed.
Print Assumptions C60_addresses_partial.
Example C60_example : html_of T0 (u """x"":a" ++ nl ++ nl ++ u "[a]http://z.com/" ++ nl ++ u "[a]http://y.com/") =
  Some (u "<p><a href=""http://y.com/"">x</a></p>").
Proof. vm_compute. reflexivity. Qed.
