(** Span depth; the size probe; references to footnotes and notes as functions. *)
From Coq Require Import ZArith.
From Verif Require Import Str Unicode Regex RegexParse RegexSnips RegexTheory RegexGroups Lib ModelBase ModelHtml ModelUrl
  ModelAttrs ModelInline ModelParser ProofAttrs Logic ProofWalk ProofState ProofMemory SpecParse SpecState.
#[local] Arguments u : simpl never.

(** ** The depth is restored, whatever the cache holds *)
Definition level {A} (m : M A) : Prop :=
  forall s, match m s with Ret _ s' => ps_span_depth s' = ps_span_depth s | _ => True end.
Definition everything : uids := fun _ => True.
#[local] Existing Instance everything.
Lemma level_ops W T : ops W T (@level).
Proof.
  pose proof (steps_depth W T) as HS.
  split; try (intros; intros s0; first [reflexivity | exact I]).
  - intros A B m k Hm Hk s. unfold bind. specialize (Hm s). destruct (m s) as [a s1| |]; auto.
    specialize (Hk a s1). destruct (k a s1); auto. congruence.
  - intros A m m' He Hm s. rewrite He. apply Hm.
  - intros A k _ Hk s. apply (Hk s s).
  - intros text body Hb s. unfold span_bracket, bind, modify, get, ret. cbn [ps_span_depth set_span_depth].
    destruct (ps_span_depth s + 1 <=? t_max_span_depth T).
    + specialize (Hb (set_span_depth (ps_span_depth s + 1) s)). destruct (body _) as [t s1| |]; auto.
      cbn [ps_span_depth set_span_depth] in *. lia.
    + cbn [ps_span_depth set_span_depth]. lia.
  - intros id s. destruct (footnote_op T id s) as [v s'| |] eqn:E; auto. eapply (r_footnote _ _ _ HS); eauto.
  - intros id s. destruct (noteref_op T id s) as [v s'| |] eqn:E; auto. eapply (r_noteref _ _ _ HS); eauto.
Qed.
Lemma span_level T text s t s' : span T text s = Ret t s' -> ps_span_depth s' = ps_span_depth s.
Proof.
  intros H. set (W := mk_world (fun _ => None) (fun _ => None) (fun _ => false) (fun _ _ _ => None) (fun _ => None)).
  pose proof (w_span W T _ (level_ops W T) text s) as P. rewrite H in P. exact P.
Qed.

(** ** Beyond the limit a span is left as it is *)
Lemma span_n_eq T n text s : span_n T (S n) text s =
  (text <- (if ps_span_depth s + 1 <=? t_max_span_depth T
               then multi_replace_with_one text TAG_PATTERNS (f_span T (span_n T n))
               else ret text) ;;
      modify (fun s => set_span_depth (ps_span_depth s - 1) s) ;;;
      ret text) (set_span_depth (ps_span_depth s + 1) s).
Proof. reflexivity. Qed.
Lemma span_beyond T text s : t_max_span_depth T <= ps_span_depth s -> span T text s = Ret text s.
Proof.
  intros H. unfold span. rewrite span_n_eq. replace (ps_span_depth s + 1 <=? t_max_span_depth T) with false by (symmetry; apply N.leb_gt; lia).
  unfold bind, modify, ret. cbn [ps_span_depth set_span_depth]. rewrite N.add_sub. destruct s; reflexivity.
Qed.

(** ** The recursion stays within the limit *)
Definition agree {A} (d : N) (m m' : M A) : Prop :=
  forall s, ps_span_depth s = d -> m s = m' s /\ match m s with Ret _ s' => ps_span_depth s' = d | Panic _ => True | Diverge => False end.
Lemma agree_bind {A B} d (m m' : M A) (k k' : A -> M B) : agree d m m' -> (forall a, agree d (k a) (k' a)) -> agree d (bind m k) (bind m' k').
Proof.
  intros Hm Hk s Hs. unfold bind. destruct (Hm s Hs) as [<- H]. destruct (m s) as [a s1| |]; auto. apply Hk. exact H.
Qed.
Lemma agree_ret {A} d (a : A) : agree d (ret a) (ret a).
Proof. intros s Hs. split; [reflexivity|exact Hs]. Qed.
Lemma agree_capx d n h : agree d (capx n h) (capx n h).
Proof. intros s Hs. split; [reflexivity|]. unfold capx. destruct n; [exact Hs|]. destruct (cap_text _ _); cbn; auto. Qed.
Definition calm {A} (m : M A) : Prop := (exists a, forall s, m s = Ret a s) \/ exists p, forall s, m s = Panic p.
Lemma agree_calm {A} d (m : M A) : calm m -> agree d m m.
Proof. intros [[a H]|[p H]] s Hs; rewrite H; auto. Qed.
Lemma agree_mapM {A B} d (f g : A -> M B) l : (forall a, agree d (f a) (g a)) -> agree d (mapM f l) (mapM g l).
Proof.
  intros H. induction l as [|x l IH]; cbn [mapM]; [apply agree_ret|]. apply agree_bind; [auto|intros]. apply agree_bind; [auto|intros; apply agree_ret].
Qed.
Lemma agree_foldM {A B} d (f g : B -> A -> M B) l : (forall b a, agree d (f b a) (g b a)) -> forall b, agree d (foldM f b l) (foldM g b l).
Proof. intros H. induction l as [|x l IH]; intros b; cbn [foldM]; [apply agree_ret|]. apply agree_bind; [auto|intros; auto]. Qed.
Lemma calm_bind {A B} (m : M A) (k : A -> M B) : calm m -> (forall a, calm (k a)) -> calm (bind m k).
Proof.
  intros [[a H]|[p H]] Hk.
  - destruct (Hk a) as [[b Hb]|[p Hp]]; [left; exists b|right; exists p]; intros s; unfold bind; rewrite H; auto.
  - right. exists p. intros s. unfold bind. rewrite H. reflexivity.
Qed.
Lemma calm_ret {A} (a : A) : calm (ret a).
Proof. left. exists a. reflexivity. Qed.
Lemma calm_panic {A} p : calm (@panic A p).
Proof. right. exists p. reflexivity. Qed.
Lemma calm_of_opt {A} p (o : option A) : calm (of_opt p o).
Proof. destruct o; [apply calm_ret|apply calm_panic]. Qed.
Lemma calm_if {A} (b : bool) (m m' : M A) : calm m -> calm m' -> calm (if b then m else m').
Proof. destruct b; auto. Qed.
Lemma calm_capx n h : calm (capx n h).
Proof. unfold capx. destruct n; [apply calm_ret|apply calm_of_opt]. Qed.
Lemma calm_valign el t : calm (valign_style el t).
Proof.
  unfold valign_style. apply calm_if; [|apply calm_ret]. destruct (captures _ t); [|apply calm_ret].
  repeat (apply calm_if; [apply calm_ret|]). apply calm_panic.
Qed.
Lemma calm_halign t : calm (halign_style t).
Proof.
  unfold halign_style. destruct (captures _ t); [|apply calm_ret]. apply calm_bind; [apply calm_capx|intros v].
  repeat (apply calm_if; [apply calm_ret|]). apply calm_panic.
Qed.
Lemma calm_ba t el inc r : calm (block_attributes_parse t el inc r).
Proof.
  unfold block_attributes_parse. destruct (is_empty t); [apply calm_ret|].
  apply calm_bind; [apply calm_valign|intros va].
  destruct (if r then ([], t) else _) as [style1 t1].
  destruct (match captures (rx_re ATTR_LANG_RE) t1 with Some h => _ | None => _ end) as [lang t2].
  destruct (match captures (rx_re ATTR_ACLASS_RE) t2 with Some h => _ | None => _ end) as [[ac bi] t3].
  destruct (match captures (rx_re ATTR_PADDING_LEFT_RE) t3 with Some h => _ | None => _ end) as [st2 t4].
  destruct (match captures (rx_re ATTR_PADDING_RIGHT_RE) t4 with Some h => _ | None => _ end) as [st3 t5].
  apply calm_bind; [apply calm_halign|intros ha].
  destruct (if el_is_col el then _ else _) as [sp wi]. apply calm_ret.
Qed.
Lemma calm_span_tag m : calm (span_tag m).
Proof. unfold span_tag. repeat (apply calm_if; [apply calm_ret|]). apply calm_panic. Qed.
Lemma agree_f_span T d f g h : (forall t, agree d (f t) (g t)) -> agree d (f_span T f h) (f_span T g h).
Proof.
  intros H. unfold f_span. apply agree_bind; [apply agree_capx|intros]. apply agree_bind; [apply agree_calm, calm_span_tag|intros].
  apply agree_bind; [apply agree_capx|intros]. apply agree_bind; [apply agree_calm, calm_ba|intros].
  apply agree_bind; [apply agree_capx|intros]. apply agree_bind; [apply H|intros]. apply agree_bind; [apply agree_capx|intros].
  destruct (get_special_options _ _). apply agree_bind; [|intros; apply agree_ret].
  intros st Hst. split; [reflexivity|]. rewrite store_tags_eq. exact Hst.
Qed.
Lemma agree_multi T d f g l text : (forall t, agree d (f t) (g t)) ->
  agree d (multi_replace_with_one text l (f_span T f)) (multi_replace_with_one text l (f_span T g)).
Proof.
  intros H. unfold multi_replace_with_one. apply agree_foldM. intros t r. unfold replace_allM.
  apply agree_bind; [|intros; apply agree_ret]. apply agree_mapM. intros [c|h]; cbn [replace_segM]; [apply agree_ret|].
  apply agree_f_span. exact H.
Qed.
(** [room] more spans fit below depth [d]. *)
Lemma span_n_agree T room : forall d n n' text, (t_max_span_depth T <= d + N.of_nat room)%N -> (room < n)%nat -> (room < n')%nat ->
  agree d (span_n T n text) (span_n T n' text).
Proof.
  induction room as [|room IH]; intros d n n' text Hd Hn Hn' s Hs; (destruct n as [|n]; [lia|]); (destruct n' as [|n']; [lia|]);
    rewrite !span_n_eq, Hs.
  - replace (d + 1 <=? t_max_span_depth T) with false by (symmetry; apply N.leb_gt; lia). split; [reflexivity|].
    cbn. rewrite ?N.add_sub; lia.
  - destruct (d + 1 <=? t_max_span_depth T); cycle 1.
    { split; [reflexivity|]. cbn. rewrite ?N.add_sub; lia. }
    assert (agree (d + 1) (multi_replace_with_one text TAG_PATTERNS (f_span T (span_n T n)))
                          (multi_replace_with_one text TAG_PATTERNS (f_span T (span_n T n')))) as P.
    { apply agree_multi. intros t. apply IH; lia. }
    destruct (P (set_span_depth (d + 1) s) eq_refl) as [E1 E2].
    generalize dependent (multi_replace_with_one text TAG_PATTERNS (f_span T (span_n T n))).
    generalize (multi_replace_with_one text TAG_PATTERNS (f_span T (span_n T n'))). intros m' m P E1 E2.
    unfold bind at 1 3 4. rewrite <- E1. split; [reflexivity|]. unfold bind at 1.
    destruct (m (set_span_depth (d + 1) s)) as [t s1| |]; auto. cbn. rewrite E2. lia.
Qed.
Lemma span_bounded T n text s : (N.to_nat (t_max_span_depth T) < n)%nat -> span_n T n text s = span T text s.
Proof.
  intros H. unfold span. refine (proj1 (span_n_agree T (N.to_nat (t_max_span_depth T)) (ps_span_depth s) _ _ text _ _ _ s eq_refl)); lia.
Qed.
Lemma span_ends T text s : span T text s <> Diverge.
Proof.
  pose proof (proj2 (span_n_agree T (N.to_nat (t_max_span_depth T)) (ps_span_depth s) (S (S (N.to_nat (t_max_span_depth T))))
    (S (S (N.to_nat (t_max_span_depth T)))) text ltac:(lia) ltac:(lia) ltac:(lia) s eq_refl)) as P.
  unfold span. intros H. rewrite H in P. exact P.
Qed.

(** ** The size probe *)
Lemma read_loop_ends W url n : forall i data s, (MAX_IMAGE_CHUNK + 1 - List.length data < n)%nat ->
  (List.length data <= MAX_IMAGE_CHUNK)%nat ->
  exists size, read_loop W n i url data s = Ret size s.
Proof.
  induction n as [|n IH]; intros i data s Hn Hl; [lia|]. cbn [read_loop].
  destruct (w_read W url i (MAX_IMAGE_CHUNK - List.length data)) as [bytes|]; [|eexists; reflexivity].
  destruct (firstn (MAX_IMAGE_CHUNK - List.length data) bytes) as [|x got] eqn:E; [eexists; reflexivity|].
  destruct (w_info W (data ++ x :: got)); [eexists; reflexivity|].
  assert (List.length (x :: got) <= MAX_IMAGE_CHUNK - List.length data)%nat as Hg by (rewrite <- E; apply firstn_le_length).
  apply IH; rewrite app_length; cbn [List.length] in *; lia.
Qed.
Lemma probe_ends W url s : exists size, get_image_size W url s = Ret size (set_http (ps_http s ++ [url]) s).
Proof.
  unfold get_image_size, bind, modify. destruct (ModelBase.w_get W url); [|eexists; reflexivity].
  apply read_loop_ends; [change (List.length (@nil N)) with O; lia|apply Nat.le_0_l].
Qed.
Lemma read_loop_found W url n : forall i data s size s', reads W url i data -> (List.length data <= 1024)%nat ->
  read_loop W n i url data s = Ret (Some size) s' ->
  exists j data, reads W url j data /\ (List.length data <= 1024)%nat /\ w_info W data = Some size.
Proof.
  induction n as [|n IH]; intros i data s size s' Hr Hl H; [discriminate|]. cbn [read_loop] in H. change MAX_IMAGE_CHUNK with 1024%nat in H.
  destruct (w_read W url i (1024 - List.length data)) as [bytes|] eqn:Er; [|discriminate].
  pose proof (reads_more W url i data bytes Hr Er) as Hm.
  destruct (firstn (1024 - List.length data) bytes) as [|x got] eqn:E; [discriminate|].
  assert (List.length (data ++ x :: got) <= 1024)%nat as Hg.
  { rewrite app_length, <- E. pose proof (firstn_le_length (1024 - List.length data) bytes). lia. }
  destruct (w_info W (data ++ x :: got)) as [size'|] eqn:Ei.
  - exists (S i), (data ++ x :: got). split; [auto|split; [auto|]]. unfold ret in H. congruence.
  - eapply IH; eauto.
Qed.
Lemma probe_found W url s size s' : get_image_size W url s = Ret (Some size) s' ->
  exists j data, reads W url j data /\ (List.length data <= 1024)%nat /\ w_info W data = Some size.
Proof.
  unfold get_image_size, bind, modify. destruct (ModelBase.w_get W url); [|discriminate].
  apply read_loop_found; [constructor|apply Nat.le_0_l].
Qed.
Lemma read_loop_local W W' url n : same_within W W' url -> forall i data, (i <= List.length data)%nat -> (List.length data <= 1024)%nat ->
  read_loop W n i url data = read_loop W' n i url data.
Proof.
  intros (_ & Hr & Hi). induction n as [|n IH]; intros i data H1 H2; [reflexivity|]. cbn [read_loop]. change MAX_IMAGE_CHUNK with 1024%nat.
  specialize (Hr i (1024 - List.length data)%nat ltac:(lia) ltac:(lia)).
  destruct (w_read W url i (1024 - List.length data)) as [bytes|], (w_read W' url i (1024 - List.length data)) as [bytes'|]; try discriminate; auto.
  cbn [option_map] in Hr. assert (firstn (1024 - List.length data) bytes = firstn (1024 - List.length data) bytes') as <- by congruence.
  destruct (firstn (1024 - List.length data) bytes) as [|x got] eqn:E; [reflexivity|].
  assert (List.length (data ++ x :: got) <= 1024)%nat as Hg.
  { rewrite app_length, <- E. pose proof (firstn_le_length (1024 - List.length data) bytes). lia. }
  rewrite Hi by exact Hg. destruct (w_info W' (data ++ x :: got)); [reflexivity|]. apply IH; [|auto].
  rewrite app_length. cbn [List.length]. lia.
Qed.
Lemma probe_local W W' url s : same_within W W' url -> get_image_size W url s = get_image_size W' url s.
Proof.
  intros H. unfold get_image_size, bind, modify. pose proof H as (-> & _). destruct (ModelBase.w_get W' url); [|reflexivity].
  rewrite (read_loop_local W W' url _ H); [reflexivity|apply Nat.le_refl|apply Nat.le_0_l].
Qed.

(** ** References *)
Lemma footnote_shape T h s html s' : f_footnote_id T h s = Ret html s' ->
  exists n v space, cap_opt 1 h = Some n /\ cap_opt 3 h = Some space /\ footnote_op T n s = Ret v s' /\
  html = (if seqb (cap_or 2 h) (u "!") then generate_tag (u "sup") (Some n) (fst v)
          else generate_tag (u "sup") (Some (generate_tag (u "a") (Some n) [(u "href", u "#fn" ++ snd v)])) (fst v)) ++ space.
Proof.
  unfold f_footnote_id. unfold bind at 1. unfold capx at 1. destruct (cap_text 1 (h_caps h)) as [n|] eqn:E1; [|discriminate].
  unfold of_opt at 1, ret at 1.
  intros H. assert ((v <- footnote_op T n ;; space <- capx 3 h ;;
     ret ((if seqb (cap_or 2 h) (u "!") then generate_tag (u "sup") (Some n) (fst v)
           else generate_tag (u "sup") (Some (generate_tag (u "a") (Some n) [(u "href", u "#fn" ++ snd v)])) (fst v)) ++ space)) s = Ret html s') as H'.
  { rewrite <- H. unfold footnote_op. unfold bind, get. destruct (has_key n (ps_footnotes s)).
    - unfold ret. destruct (assoc n (ps_footnotes s)); reflexivity.
    - rewrite new_id_eq. unfold modify, ret. destruct (assoc n _); reflexivity. }
  clear H. unfold bind at 1 in H'. destruct (footnote_op T n s) as [v s1| |] eqn:Ef; try discriminate.
  unfold bind, capx in H'. destruct (cap_text 3 (h_caps h)) as [space|] eqn:E3; [|discriminate]. unfold of_opt, ret in H'.
  exists n, v, space. injection H' as H1 H2. subst s1. split; [exact E1|split; [exact E3|split; [exact Ef|]]]. symmetry. exact H1.
Qed.
Lemma noteref_shape T h s html s' : f_parse_note_refs T h s = Ret html s' ->
  exists label num refid id attrs nolink, cap_opt 2 h = Some label /\ cap_opt 3 h = Some nolink /\
  noteref_op T label s = Ret (num, refid, id) s' /\
  html = generate_tag (u "sup")
    (Some (if seqb nolink (u "!") then u "<span id=""noteref" ++ refid ++ u """>" ++ num ++ u "</span>"
           else u "<a href=""#note" ++ id ++ u """>" ++ (u "<span id=""noteref" ++ refid ++ u """>" ++ num ++ u "</span>") ++ u "</a>")) attrs.
Proof.
  unfold f_parse_note_refs, capx. unfold bind at 1. destruct (cap_text 1 (h_caps h)) as [a|]; [|discriminate]. unfold of_opt at 1, ret at 1.
  unfold bind at 1. destruct (cap_text 2 (h_caps h)) as [label|] eqn:E2; [|discriminate]. unfold of_opt at 1, ret at 1.
  unfold bind at 1. destruct (cap_text 3 (h_caps h)) as [nolink|] eqn:E3; [|discriminate]. unfold of_opt at 1, ret at 1.
  unfold bind at 1. destruct (calm_ba a ElNone true (t_restricted T)) as [[ba Hba]|[p Hp]]; [rewrite Hba|rewrite Hp; discriminate].
  intros H. assert ((v <- noteref_op T label ;;
     ret (generate_tag (u "sup")
    (Some (if seqb nolink (u "!") then u "<span id=""noteref" ++ snd (fst v) ++ u """>" ++ fst (fst v) ++ u "</span>"
           else u "<a href=""#note" ++ snd v ++ u """>" ++ (u "<span id=""noteref" ++ snd (fst v) ++ u """>" ++ fst (fst v) ++ u "</span>") ++ u "</a>"))
     (ba_html_attrs ba))) s = Ret html s') as H'.
  { rewrite <- H. unfold noteref_op. unfold bind at 1 2 3, get at 1. symmetry. unfold bind at 1, get at 1.
    assert (forall (num : str) s1, (refid <- new_id T ;;
     s <- get ;;
     nt <- of_opt MissingKey (assoc label (ps_notes s)) ;;
     id <- (if is_empty (n_id nt) then new_id T else ret []) ;;
     let result := u "<span id=""noteref" ++ refid ++ u """>" ++ num ++ u "</span>" in
     let result := if seqb nolink (u "!") then result
                   else u "<a href=""#note" ++ id ++ u """>" ++ result ++ u "</a>" in
     modify (fun s => set_notes
       (bt_insert label (mk_note (if is_empty (n_id nt) then id else n_id nt)
                                 (n_content nt) (n_link nt) (n_attrs nt) (n_seq nt)
                                 (n_refids nt ++ [refid])) (ps_notes s)) s) ;;;
     ret (generate_tag (u "sup") (Some result) (ba_html_attrs ba))) s1 =
     match (refid <- new_id T ;;
      s <- get ;;
      nt <- of_opt MissingKey (assoc label (ps_notes s)) ;;
      id <- (if is_empty (n_id nt) then new_id T else ret []) ;;
      modify (fun s => set_notes
       (bt_insert label (mk_note (if is_empty (n_id nt) then id else n_id nt)
                                 (n_content nt) (n_link nt) (n_attrs nt) (n_seq nt)
                                 (n_refids nt ++ [refid])) (ps_notes s)) s) ;;;
      ret (num, refid, id)) s1 with
      | Ret v s2 => ret (generate_tag (u "sup")
    (Some (if seqb nolink (u "!") then u "<span id=""noteref" ++ snd (fst v) ++ u """>" ++ fst (fst v) ++ u "</span>"
           else u "<a href=""#note" ++ snd v ++ u """>" ++ (u "<span id=""noteref" ++ snd (fst v) ++ u """>" ++ fst (fst v) ++ u "</span>") ++ u "</a>"))
     (ba_html_attrs ba)) s2
      | Panic p => Panic p | Diverge => Diverge end) as P.
    { intros num s1. unfold bind. rewrite new_id_eq. unfold get. destruct (assoc label _) as [nt|]; [|reflexivity]. unfold of_opt, ret.
      destruct (is_empty (n_id nt)); [rewrite new_id_eq|]; reflexivity. }
    destruct (match assoc label (ps_notes s) with Some n => n_seq n | None => None end) as [num|].
    - unfold bind at 1, ret at 1. rewrite P. unfold bind at 6, ret at 6. reflexivity.
    - unfold bind at 1. unfold bind at 1, modify at 1, ret at 1. rewrite P. reflexivity. }
  clear H. unfold bind at 1 in H'. destruct (noteref_op T label s) as [[[num refid] id] s1| |] eqn:Ef; try discriminate.
  unfold ret in H'. injection H' as H1 H2. subst s1. exists label, num, refid, id, (ba_html_attrs ba), nolink.
  split; [exact E2|split; [exact E3|split; [exact Ef|]]]. symmetry. exact H1.
Qed.
Lemma quoteattr_safe v : attr_safe v -> quoteattr v = u """" ++ v ++ u """".
Proof.
  intros H. assert (encode_html v false true = v) as E.
  { unfold encode_html. induction H as [|c v Hc _ IH]; [reflexivity|]. cbn [flat_map]. rewrite IH.
    unfold encode_char. cbn [In] in Hc. cbn [andb].
    repeat match goal with |- context [c =? ?k] => destruct (N.eqb_spec c k); [exfalso; apply Hc; subst c; auto 10|] end. reflexivity. }
  unfold quoteattr. rewrite E. destruct (contains_char 34 v) eqn:E2; [|reflexivity].
  apply contains_char_in in E2. unfold attr_safe in H. rewrite Forall_forall in H. apply H in E2. exfalso. apply E2. cbn. auto 10.
Qed.
Lemma attr_safe_app a b : attr_safe a -> attr_safe b -> attr_safe (a ++ b).
Proof. intros. apply Forall_app. auto. Qed.
Lemma attr_safe_dec n : attr_safe (dec n).
Proof. eapply Forall_impl; [|apply dec_digits]. cbn. intros c H [E|[E|[E|[E|[E|[E|[E|[]]]]]]]]; lia. Qed.
Lemma attr_safe_class : attr_safe (u "footnote").
Proof. unfold attr_safe. apply Forall_forall. intros c H E. lits_in H. cbn in H, E. intuition lia. Qed.
Lemma attr_safe_fnrev : attr_safe (u "fnrev").
Proof. unfold attr_safe. apply Forall_forall. intros c H E. lits_in H. cbn in H, E. intuition lia. Qed.
Lemma attr_safe_fn : attr_safe (u "#fn").
Proof. unfold attr_safe. apply Forall_forall. intros c H E. lits_in H. cbn in H, E. intuition lia. Qed.
Lemma footnote_tag n id (first nolink : bool) : attr_safe id ->
  (if nolink then generate_tag (u "sup") (Some n) ((u "class", u "footnote") :: if first then [(u "id", u "fnrev" ++ id)] else [])
   else generate_tag (u "sup") (Some (generate_tag (u "a") (Some n) [(u "href", u "#fn" ++ id)]))
          ((u "class", u "footnote") :: if first then [(u "id", u "fnrev" ++ id)] else [])) = footnote_html n id first nolink [].
Proof.
  intros H.
  assert (forall t, generate_tag (u "sup") (Some t) ((u "class", u "footnote") :: if first then [(u "id", u "fnrev" ++ id)] else []) =
    u "<sup class=""footnote""" ++ (if first then u " id=""fnrev" ++ id ++ u """" else []) ++ u ">" ++ t ++ u "</sup>") as Hs.
  { intros t. unfold generate_tag. change (is_empty (u "sup")) with false. change (forallb is_alphanumeric (u "sup")) with true. cbn [negb].
    unfold join_html_attributes. cbn [filter fst]. change (forallb is_valid_attribute_char (u "class")) with true.
    destruct first; cbn [filter flat_map fst]; [change (forallb is_valid_attribute_char (u "id")) with true; cbn [flat_map]|];
      unfold attr_str; cbn [fst snd]; rewrite (quoteattr_safe _ attr_safe_class), ?(quoteattr_safe (u "fnrev" ++ id)) by (apply attr_safe_app; [apply attr_safe_fnrev|auto]);
      lits; rewrite <- ?app_assoc; reflexivity. }
  assert (generate_tag (u "a") (Some n) [(u "href", u "#fn" ++ id)] = u "<a href=""#fn" ++ id ++ u """>" ++ n ++ u "</a>") as Ha.
  { unfold generate_tag. change (is_empty (u "a")) with false. change (forallb is_alphanumeric (u "a")) with true. cbn [negb].
    unfold join_html_attributes. cbn [filter fst]. change (forallb is_valid_attribute_char (u "href")) with true. cbn [flat_map].
    unfold attr_str; cbn [fst snd]. rewrite (quoteattr_safe (u "#fn" ++ id)) by (apply attr_safe_app; [apply attr_safe_fn|auto]).
    lits; rewrite <- ?app_assoc; reflexivity. }
  unfold footnote_html. rewrite Ha, !Hs, app_nil_r. destruct nolink; [reflexivity|]. rewrite <- !app_assoc. reflexivity.
Qed.
Theorem footnote_reference T h s html s' : attr_safe (t_link_prefix T) -> footnotes_ok T s -> f_footnote_id T h s = Ret html s' ->
  exists n id space, cap_opt 1 h = Some n /\ cap_opt 3 h = Some space /\ footnotes_ok T s' /\
  assoc n (ps_footnotes s') = Some id /\
  (assoc n (ps_footnotes s) = None -> ~ In id (map snd (ps_footnotes s))) /\
  (assoc n (ps_footnotes s) <> None -> s' = s) /\
  html = footnote_html n id (negb (has_key n (ps_footnotes s))) (seqb (cap_or 2 h) (u "!")) space.
Proof.
  intros Hp Hok H. apply footnote_shape in H as (n & v & space & H1 & H2 & H3 & H4). apply footnote_eq in H3 as [(fn & E & -> & ->) | (E & -> & ->)].
  - exists n, fn, space. split; [auto|split; [auto|split; [auto|split; [auto|split; [congruence|split; [auto|]]]]]].
    unfold has_key. rewrite E. cbn [negb fst snd] in *. rewrite H4.
    assert (attr_safe fn) as Hfn.
    { destruct Hok as (_ & _ & Hok). rewrite Forall_forall in Hok. destruct (Hok fn) as (i & _ & ->); [|apply attr_safe_app; [auto|apply attr_safe_dec]].
      clear - E. induction (ps_footnotes s) as [|[k v] l IH]; [discriminate|]. cbn in *. destruct (seqb k n); [left; congruence|right; auto]. }
    change [(u "class", u "footnote")] with ((u "class", u "footnote") :: if false then [(u "id", u "fnrev" ++ fn)] else []).
    rewrite (footnote_tag n fn false _ Hfn). unfold footnote_html. rewrite !app_nil_r, <- !app_assoc. reflexivity.
  - set (fn := t_link_prefix T ++ dec (ps_link_index s + 1)) in *.
    assert (attr_safe fn) as Hfn by (apply attr_safe_app; [auto|apply attr_safe_dec]).
    exists n, fn, space. split; [auto|split; [auto|]]. destruct (new_footnote T s n E Hok) as [H5 H6]. fold fn in H5, H6.
    split; [exact H5|]. split; [cbn [ps_footnotes set_footnotes]; apply assoc_im|]. split; [|split; [congruence|]].
    + intros _ Hin. destruct H5 as (_ & H5 & _). cbn [ps_footnotes set_footnotes] in H5. rewrite H6, map_app in H5. cbn [map snd] in H5.
      apply NoDup_remove_2 in H5. apply H5. rewrite app_nil_r. exact Hin.
    + unfold has_key. rewrite E. cbn [negb fst snd] in *. rewrite H4.
      change [(u "class", u "footnote"); (u "id", u "fnrev" ++ fn)] with ((u "class", u "footnote") :: if true then [(u "id", u "fnrev" ++ fn)] else []).
      rewrite (footnote_tag n fn true _ Hfn). unfold footnote_html. rewrite !app_nil_r, <- !app_assoc. reflexivity.
Qed.
Lemma in_list_in x l : in_list x l = true <-> In x l.
Proof.
  unfold in_list. rewrite existsb_exists. split; [intros (y & H & E); apply seqb_eq in E; congruence|].
  intros H. exists x. split; [auto|apply seqb_refl].
Qed.
Theorem note_reference T h order s html s' : notes_ok order s -> f_parse_note_refs T h s = Ret html s' ->
  exists label order' k i id attrs, cap_opt 2 h = Some label /\
  referenced order label order' /\ nth_error order' k = Some label /\ notes_ok order' s' /\
  ps_link_index s < i <= ps_link_index s' /\
  html = generate_tag (u "sup") (Some (note_html (dec (1 + N.of_nat k)) (t_link_prefix T ++ dec i) id (seqb (cap_or 3 h) (u "!")))) attrs.
Proof.
  intros Hok H. apply noteref_shape in H as (label & num & refid & id & attrs & nolink & H1 & H2 & H3 & H4).
  destruct (noteref_ok _ _ _ _ _ _ _ _ Hok H3) as (k & H5 & H6 & H7).
  pose proof (noteref_same _ _ _ _ _ H3) as (_ & _ & _ & _ & _ & _ & H8).
  apply noteref_eq in H3 as (nt & _ & _ & H9 & _).
  exists label, (if in_list label order then order else order ++ [label]), k, (ps_link_index s + 1), id, attrs.
  split; [auto|]. split.
  { unfold referenced. destruct (in_list label order) eqn:E; [left|right]; split; auto; [apply in_list_in; auto|].
    intros Hin. apply in_list_in in Hin. congruence. }
  split; [auto|split; [auto|split; [lia|]]]. rewrite H4, H6, H9. unfold note_html, cap_or. rewrite H2. reflexivity.
Qed.

(** ** Whole documents *)
Section Documents.
Context {K : uids}.
Lemma parse_footnotes W T fuel c text html s : known (t_uid T) -> cache_ok c -> parse W T fuel c text = Ret html s -> footnotes_ok T s.
Proof.
  intros HK Hc H.
  assert (forall s v s', rekey_op s = Ret v s' -> footnotes_step T s s') as Hrk.
  { intros s1 v s2 H1. apply rekey_eq in H1 as (a & b & ->). apply footnotes_same; cbn; [reflexivity|lia]. }
  pose proof (parse_keeps W T _ (steps_footnotes W T) HK fuel c text Hrk Hc) as P. rewrite H in P.
  destruct P as (_ & _ & _ & P). apply P. split; [constructor|split; constructor].
Qed.
(** Text processed in any state extends what was collected. *)
Lemma graf_footnotes W T fuel n text s t s' : known (t_uid T) -> ps_borrowed s = false -> cache_ok (ps_cache s) ->
  graf_n W T fuel n text s = Ret t s' -> footnotes_step T s s'.
Proof.
  intros HK Hb Hc H.
  pose proof (w_graf W T fuel _ _ (keeps_ops W T _ (steps_footnotes W T) true) (keeps_ops W T _ (steps_footnotes W T) false)
    (keeps_cache W T _ (steps_footnotes W T) HK) HK n text s Hb Hc) as P. rewrite H in P. apply P.
Qed.
Lemma block_notes W T fuel n c text t s : known (t_uid T) -> cache_ok c ->
  block W T (graf_n W T fuel n) text (new_state c) = Ret t s -> exists order, notes_ok order s.
Proof.
  intros HK Hc H. pose proof (block_keeps W T _ (steps_notes W T) HK fuel n text (new_state c) eq_refl Hc) as P. rewrite H in P.
  destruct P as (_ & _ & P). destruct (P []) as (more & Hm); [|exists more; exact Hm].
  split; [constructor|split; [reflexivity|split]]; cbn; intros; [destruct k; discriminate|discriminate].
Qed.
End Documents.
