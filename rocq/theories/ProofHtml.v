(** Escaping, attributes, character references. *)
From Verif Require Import Str Lib Regex RegexTheory RegexParse RegexSnips ModelBase ModelHtml ModelUrl SpecHtml.

(** ** [encode_html] *)
Definition entities (quotes line_spacers : bool) : list str :=
  [u "&amp;"; u "&lt;"; u "&gt;"]
  ++ (if quotes then [u "&quot;"; u "&#39;"] else [])
  ++ (if line_spacers then [u "&#13;"; u "&#10;"; u "&#9;"] else []).

(** Characters that are not left in an escaped text. *)
Definition unsafe (quotes line_spacers : bool) (c : N) : Prop :=
  c = 60 \/ c = 62 \/ (quotes = true /\ (c = 34 \/ c = 39))
  \/ (line_spacers = true /\ (c = 9 \/ c = 10 \/ c = 13)).

Lemma encode_char_cases q l c :
  (encode_char q l c = [c] /\ c <> 38 /\ ~ unsafe q l c) \/
  (In (encode_char q l c) (entities q l) /\ (c = 38 \/ unsafe q l c)).
Proof.
  unfold encode_char, unsafe, entities.
  destruct (c =? 38) eqn:E1; [apply N.eqb_eq in E1; right; split; [left; reflexivity|auto]|].
  destruct (c =? 60) eqn:E2; [apply N.eqb_eq in E2; right; split; [right; left; reflexivity|auto]|].
  destruct (c =? 62) eqn:E3; [apply N.eqb_eq in E3; right; split; [right; right; left; reflexivity|auto]|].
  apply N.eqb_neq in E1, E2, E3.
  destruct (q && (c =? 34)) eqn:E4.
  { apply andb_true_iff in E4 as [-> E4]. apply N.eqb_eq in E4. right; split; [|auto 8].
    apply in_or_app; right. apply in_or_app; left. left; reflexivity. }
  destruct (q && (c =? 39)) eqn:E5.
  { apply andb_true_iff in E5 as [-> E5]. apply N.eqb_eq in E5. right; split; [|auto 8].
    apply in_or_app; right. apply in_or_app; left. right; left; reflexivity. }
  destruct (l && (c =? 10)) eqn:E6.
  { apply andb_true_iff in E6 as [-> E6]. apply N.eqb_eq in E6. right; split; [|auto 12].
    apply in_or_app; right. apply in_or_app; right. left; reflexivity. }
  destruct (l && (c =? 13)) eqn:E7.
  { apply andb_true_iff in E7 as [-> E7]. apply N.eqb_eq in E7. right; split; [|auto 12].
    apply in_or_app; right. apply in_or_app; right. right; left; reflexivity. }
  destruct (l && (c =? 9)) eqn:E8.
  { apply andb_true_iff in E8 as [-> E8]. apply N.eqb_eq in E8. right; split; [|auto 12].
    apply in_or_app; right. apply in_or_app; right. right; right; left; reflexivity. }
  left. split; [reflexivity|]. split; [exact E1|].
  intros [H|[H|[[-> H]|[-> H]]]]; try contradiction.
  - rewrite andb_true_l in E4, E5. apply N.eqb_neq in E4, E5. destruct H; contradiction.
  - rewrite andb_true_l in E6, E7, E8. apply N.eqb_neq in E6, E7, E8. intuition.
Qed.

Lemma entities_safe q l e c : In e (entities q l) -> In c e -> ~ unsafe q l c.
Proof.
  intros He Hc Hu.
  assert (G : forallb (fun e => forallb (fun c => negb ((c =? 60) || (c =? 62) || (c =? 34) || (c =? 39)
              || (c =? 9) || (c =? 10) || (c =? 13))) e) (entities q l) = true) by (destruct q, l; reflexivity).
  rewrite forallb_forall in G. specialize (G e He). rewrite forallb_forall in G. specialize (G c Hc).
  unfold unsafe in Hu. rewrite negb_true_iff, !orb_false_iff, !N.eqb_neq in G. intuition.
Qed.

Lemma encode_html_safe text q l c : In c (encode_html text q l) -> ~ unsafe q l c.
Proof.
  unfold encode_html. rewrite in_flat_map. intros (x & _ & Hc).
  destruct (encode_char_cases q l x) as [(E & _ & H)|[H _]].
  - rewrite E in Hc. destruct Hc as [->|[]]; auto.
  - eapply entities_safe; eauto.
Qed.

(** An ampersand is only found at the start of an entity. *)
Lemma entities_amp q l e : In e (entities q l) -> exists r, e = 38 :: r /\ ~ In 38 r.
Proof.
  intros He.
  assert (G : forallb (fun e => match e with c :: r => (c =? 38) && forallb (fun x => negb (x =? 38)) r | [] => false end)
                (entities q l) = true) by (destruct q, l; reflexivity).
  rewrite forallb_forall in G. specialize (G e He). destruct e as [|c r]; [discriminate|].
  apply andb_true_iff in G as [G1 G2]. apply N.eqb_eq in G1. subst c. exists r; split; auto.
  intros Hin. rewrite forallb_forall in G2. specialize (G2 _ Hin). rewrite N.eqb_refl in G2; discriminate.
Qed.

Lemma encode_html_amp q l : forall text a b, encode_html text q l = a ++ 38 :: b ->
  exists e rest, In e (entities q l) /\ 38 :: b = e ++ rest.
Proof.
  induction text as [|c text IH]; intros a b H; [destruct a; discriminate|].
  cbn [encode_html flat_map] in H. fold (encode_html text q l) in H.
  destruct (encode_char_cases q l c) as [(E & Hc & _)|[He _]].
  - rewrite E in H. destruct a as [|y a]; simpl in H; inversion H; subst; [congruence|eauto].
  - destruct (entities_amp _ _ _ He) as (r & Er & Hr).
    destruct a as [|y a].
    + exists (encode_char q l c), (encode_html text q l). simpl in H. rewrite H. auto.
    + rewrite Er in H. simpl in H. inversion H; subst.
      (* the ampersand lies after the entity *)
      assert (G : forall r a, ~ In 38 r -> r ++ encode_html text q l = a ++ 38 :: b ->
                  exists a', encode_html text q l = a' ++ 38 :: b).
      { clear. induction r as [|x r IHr]; intros a Hr H; simpl in H; [eauto|].
        destruct a as [|z a]; simpl in H; inversion H; subst.
        - exfalso; apply Hr; left; auto.
        - eapply IHr; eauto. intros Hin; apply Hr; right; auto. }
      destruct (G r a Hr H2) as [a' Ha']. eauto.
Qed.

(** ** Decoding *)
Lemma html_decode_plain c s : c <> 38 -> html_decode (c :: s) = c :: html_decode s.
Proof. intros H. unfold html_decode; cbn [html_decode_go]. apply N.eqb_neq in H; rewrite H; reflexivity. Qed.

Ltac dec_entity := unfold html_decode; lits; cbn; reflexivity.

Lemma decode_encode_char q c s : html_decode (encode_char q false c ++ s) = c :: html_decode s.
Proof.
  unfold encode_char. rewrite !andb_false_l.
  destruct (c =? 38) eqn:E1; [apply N.eqb_eq in E1; subst; reflexivity|].
  destruct (c =? 60) eqn:E2; [apply N.eqb_eq in E2; subst; reflexivity|].
  destruct (c =? 62) eqn:E3; [apply N.eqb_eq in E3; subst; reflexivity|].
  destruct (q && (c =? 34)) eqn:E4.
  { apply andb_true_iff in E4 as [-> E4]; apply N.eqb_eq in E4; subst; reflexivity. }
  destruct (q && (c =? 39)) eqn:E5.
  { apply andb_true_iff in E5 as [-> E5]; apply N.eqb_eq in E5; subst; reflexivity. }
  apply N.eqb_neq in E1. simpl app. apply html_decode_plain; auto.
Qed.

Lemma decode_encode q text : html_decode (encode_html text q false) = text.
Proof.
  induction text as [|c text IH]; [reflexivity|].
  cbn [encode_html flat_map]. fold (encode_html text q false). rewrite decode_encode_char, IH. reflexivity.
Qed.

(** With line spacers escaped, CR and LF are exchanged. *)
Definition swap_crlf (c : N) : N := if c =? 10 then 13 else if c =? 13 then 10 else c.
Lemma decode_encode_char_ls q c s : html_decode (encode_char q true c ++ s) = swap_crlf c :: html_decode s.
Proof.
  unfold encode_char, swap_crlf. rewrite !andb_true_l.
  destruct (c =? 38) eqn:E1; [apply N.eqb_eq in E1; subst; reflexivity|].
  destruct (c =? 60) eqn:E2; [apply N.eqb_eq in E2; subst; reflexivity|].
  destruct (c =? 62) eqn:E3; [apply N.eqb_eq in E3; subst; reflexivity|].
  destruct (q && (c =? 34)) eqn:E4.
  { apply andb_true_iff in E4 as [-> E4]; apply N.eqb_eq in E4; subst; reflexivity. }
  destruct (q && (c =? 39)) eqn:E5.
  { apply andb_true_iff in E5 as [-> E5]; apply N.eqb_eq in E5; subst; reflexivity. }
  destruct (c =? 10) eqn:E6; [apply N.eqb_eq in E6; subst; reflexivity|].
  destruct (c =? 13) eqn:E7; [apply N.eqb_eq in E7; subst; reflexivity|].
  destruct (c =? 9) eqn:E8; [apply N.eqb_eq in E8; subst; reflexivity|].
  apply N.eqb_neq in E1. simpl app. apply html_decode_plain; auto.
Qed.
Lemma decode_encode_ls q text : html_decode (encode_html text q true) = map swap_crlf text.
Proof.
  induction text as [|c text IH]; [reflexivity|].
  cbn [encode_html flat_map]. fold (encode_html text q true).
  rewrite decode_encode_char_ls, IH. reflexivity.
Qed.
Lemma swap_crlf_inj a b : swap_crlf a = swap_crlf b -> a = b.
Proof.
  unfold swap_crlf. destruct (a =? 10) eqn:A1, (a =? 13) eqn:A2, (b =? 10) eqn:B1, (b =? 13) eqn:B2; lia.
Qed.
Lemma map_inj {A B} (f : A -> B) : (forall x y, f x = f y -> x = y) ->
  forall l l', map f l = map f l' -> l = l'.
Proof.
  intros Hf. induction l as [|x l IH]; intros [|y l'] H; simpl in H; try discriminate; auto.
  inversion H. f_equal; auto.
Qed.
Lemma encode_html_inj q l a b : encode_html a q l = encode_html b q l -> a = b.
Proof.
  intros H. apply (f_equal html_decode) in H. destruct l.
  - rewrite !decode_encode_ls in H. apply map_inj in H; auto. apply swap_crlf_inj.
  - rewrite !decode_encode in H; auto.
Qed.

(** ** [quoteattr] *)
Lemma replace_dq s : replace_char s 34 (u "&quot;") = flat_map (fun x => if x =? 34 then u "&quot;" else [x]) s.
Proof. reflexivity. Qed.

Lemma in_replace_char s c to x : In x (replace_char s c to) -> x <> c \/ In x to.
Proof.
  unfold replace_char. rewrite in_flat_map. intros (y & _ & Hy).
  destruct (y =? c) eqn:E; [right; auto|]. destruct Hy as [->|[]]. left. apply N.eqb_neq; auto.
Qed.

Lemma quoteattr_shape v : exists q body,
  quoteattr v = [q] ++ body ++ [q] /\ (q = 34 \/ q = 39) /\ ~ In q body /\
  (forall c, In c body -> c <> 60 /\ c <> 62 /\ c <> 9 /\ c <> 10 /\ c <> 13).
Proof.
  unfold quoteattr.
  pose proof (encode_html_safe v false true) as Hs.
  assert (Hs' : forall c, In c (encode_html v false true) -> c <> 60 /\ c <> 62 /\ c <> 9 /\ c <> 10 /\ c <> 13).
  { intros c Hc. specialize (Hs c Hc). unfold unsafe in Hs. repeat split; intros ->; apply Hs; auto 8. }
  destruct (contains_char 34 (encode_html v false true)) eqn:E1.
  - destruct (contains_char 39 (encode_html v false true)) eqn:E2.
    + exists 34, (replace_char (encode_html v false true) 34 (u "&quot;")).
      split; [reflexivity|]. split; [auto|]. split.
      * intros Hin. apply in_replace_char in Hin as [Hin|Hin]; [congruence|].
        vm_compute in Hin. intuition discriminate.
      * intros c Hc. unfold replace_char in Hc. apply in_flat_map in Hc as (x & Hx & Hc).
        destruct (x =? 34); [|destruct Hc as [->|[]]; auto].
        vm_compute in Hc. intuition subst; discriminate.
    + exists 39, (encode_html v false true). split; [reflexivity|]. split; [auto|].
      apply contains_char_nin in E2. auto.
  - exists 34, (encode_html v false true). split; [reflexivity|]. split; [auto|].
    apply contains_char_nin in E1. auto.
Qed.

(** Decoding of the body. *)
Lemma decode_replace_dq : forall v,
  html_decode (replace_char (encode_html v false true) 34 (u "&quot;")) = map swap_crlf v.
Proof.
  induction v as [|c v IH]; [reflexivity|].
  cbn [encode_html flat_map map]. fold (encode_html v false true).
  unfold replace_char in *. rewrite flat_map_app.
  destruct (c =? 34) eqn:E.
  - apply N.eqb_eq in E; subst c. cbn [encode_char]. 
    change (encode_char false true 34) with [34]. cbn [flat_map app].
    change (html_decode (u "&quot;" ++ flat_map (fun x => if x =? 34 then u "&quot;" else [x]) (encode_html v false true))
            = 34 :: map swap_crlf v).
    rewrite <- IH. reflexivity.
  - assert (G : flat_map (fun x => if x =? 34 then u "&quot;" else [x]) (encode_char false true c) = encode_char false true c).
    { destruct (encode_char_cases false true c) as [(Ec & _)|[Hin _]].
      - rewrite Ec. cbn [flat_map]. rewrite E. reflexivity.
      - remember (encode_char false true c) as e. clear Heqe.
        vm_compute in Hin. repeat (destruct Hin as [<-|Hin]; [reflexivity|]). destruct Hin. }
    rewrite G, decode_encode_char_ls, IH. reflexivity.
Qed.

Definition attr_body (v : str) : N * str :=
  let d := encode_html v false true in
  if contains_char 34 d then
    if contains_char 39 d then (34, replace_char d 34 (u "&quot;")) else (39, d)
  else (34, d).
Lemma quoteattr_body v : quoteattr v = [fst (attr_body v)] ++ snd (attr_body v) ++ [fst (attr_body v)].
Proof.
  unfold quoteattr, attr_body. destruct (contains_char 34 _); [destruct (contains_char 39 _)|]; reflexivity.
Qed.
Lemma attr_body_quote v : (fst (attr_body v) = 34 \/ fst (attr_body v) = 39) /\ ~ In (fst (attr_body v)) (snd (attr_body v)).
Proof.
  unfold attr_body. destruct (contains_char 34 (encode_html v false true)) eqn:E1; [destruct (contains_char 39 (encode_html v false true)) eqn:E2|]; simpl.
  - split; auto. intros Hin. apply in_replace_char in Hin as [Hin|Hin]; [congruence|].
    vm_compute in Hin. intuition discriminate.
  - split; auto. apply contains_char_nin; auto.
  - split; auto. apply contains_char_nin; auto.
Qed.
Lemma attr_body_decode v : html_decode (snd (attr_body v)) = map swap_crlf v.
Proof.
  unfold attr_body. destruct (contains_char 34 _); [destruct (contains_char 39 _)|]; simpl.
  - apply decode_replace_dq.
  - apply decode_encode_ls.
  - apply decode_encode_ls.
Qed.

(** ** Attribute lists *)
Lemma until_app c : forall a b, ~ In c a -> until c (a ++ c :: b) = Some (a, b).
Proof.
  induction a as [|x a IH]; intros b H; simpl.
  - rewrite N.eqb_refl; reflexivity.
  - destruct (x =? c) eqn:E; [apply N.eqb_eq in E; exfalso; apply H; left; auto|].
    rewrite IH; auto. intros Hin; apply H; right; auto.
Qed.

Lemma valid_char_iff c : is_valid_attribute_char c = true <-> name_char c.
Proof.
  unfold is_valid_attribute_char, is_control, name_char.
  rewrite negb_true_iff, !orb_false_iff, !andb_false_iff, !N.eqb_neq, !N.leb_gt.
  destruct (is_ws c); intuition lia.
Qed.

Lemma valid_name_iff name : forallb is_valid_attribute_char name = true <-> valid_name name.
Proof.
  unfold valid_name. rewrite forallb_forall, Forall_forall.
  split; intros H x Hx; apply valid_char_iff; auto.
Qed.

Lemma one_attr_str name v rest : ~ In 61 name ->
  one_attr (attr_str (name, v) ++ rest) = Some (name, snd (attr_body v), rest).
Proof.
  intros Hn. unfold attr_str; cbn [fst snd]. rewrite quoteattr_body.
  change (u " ") with [32]. change (u "=") with [61].
  destruct (attr_body_quote v) as [Hq Hnin].
  set (q := fst (attr_body v)) in *. set (b := snd (attr_body v)) in *.
  replace (([32] ++ name ++ [61] ++ [q] ++ b ++ [q]) ++ rest) with (32 :: name ++ 61 :: q :: b ++ q :: rest)
    by (repeat (rewrite <- app_assoc; simpl); reflexivity).
  cbn [one_attr]. rewrite until_app by auto.
  assert ((q =? 34) || (q =? 39) = true) as -> by (destruct Hq as [-> | ->]; reflexivity).
  rewrite until_app by auto. reflexivity.
Qed.

Lemma read_attrs_list : forall l fuel, Forall (fun a => ~ In 61 (fst a)) l ->
  (List.length (flat_map attr_str l) <= fuel)%nat ->
  read_attrs fuel (flat_map attr_str l) = Some (map (fun a => (fst a, map swap_crlf (snd a))) l).
Proof.
  induction l as [|[name v] l IH]; intros fuel Hl Hf; cbn [flat_map map].
  - destruct fuel; reflexivity.
  - inversion Hl; subst. cbn [flat_map] in Hf. rewrite app_length in Hf.
    assert (Hlen : (1 <= List.length (attr_str (name, v)))%nat).
    { unfold attr_str. rewrite app_length. change (List.length (u " ")) with 1%nat. lia. }
    destruct fuel as [|fuel]; [lia|].
    assert (E : exists x y, attr_str (name, v) ++ flat_map attr_str l = x :: y).
    { destruct (attr_str (name, v)); simpl in Hlen; [lia|]. simpl; eauto. }
    destruct E as (x & y & E). rewrite E. cbn [read_attrs]. rewrite <- E.
    rewrite one_attr_str by auto. rewrite IH by (auto; lia).
    cbn [fst snd]. rewrite attr_body_decode. reflexivity.
Qed.

Lemma attributes_of_join l :
  attributes_of (join_html_attributes [] l) =
  Some (map (fun a => (fst a, map swap_crlf (snd a)))
            (filter (fun a => forallb is_valid_attribute_char (fst a)) l)).
Proof.
  unfold join_html_attributes, attributes_of. rewrite app_nil_l. apply read_attrs_list; auto.
  apply Forall_forall. intros [name v] Hin. apply filter_In in Hin as [_ Hv]. cbn [fst] in *.
  intros H61. rewrite forallb_forall in Hv. specialize (Hv _ H61). discriminate.
Qed.

(** ** [reverse_encode_html] *)
Definition cap_of (h : hit) (n : nat) : option str := cap_text n (h_caps h).

Lemma entity_match before e rest :
  In e [u "&amp;"; u "&lt;"; u "&gt;"; u "&quot;"; u "&#39;"; u "&#13;"; u "&#10;"; u "&#9;"] ->
  exists s, match_at (rx_re ENTITY_RE) before (e ++ rest) = Some s /\ m_after s = rest /\
            cap_text 1 (m_caps s) = Some e.
Proof.
  intros H. cbn [In] in H.
  repeat (destruct H as [<-|H]; [
    eexists; split; [unfold match_at; lits; cbn; reflexivity|split; [reflexivity|];
    unfold cap_text; cbn [m_caps find_cap Nat.eqb option_map]; f_equal;
    match goal with |- cap_str (?a, rest) = ?e => apply (cap_str_app e rest) end]|]).
  destruct H.
Qed.

Lemma entity_no_match before c rest : c <> 38 -> match_at (rx_re ENTITY_RE) before (c :: rest) = None.
Proof.
  intros H. unfold match_at. change (rx_re ENTITY_RE) with (RGroup 1 (RSeq (RCls (cls_of [one 38]))
    match rx_re ENTITY_RE with RGroup _ (RSeq _ b) => b | _ => REps end)).
  rewrite m_group, m_seq, m_cls.
  assert (in_cls (cls_of [one 38]) c = false) as ->; [|reflexivity].
  unfold in_cls; simpl. apply not_true_iff_false. intros E.
  destruct ((38 <=? c) && (c <=? 38)) eqn:E2; simpl in E; [|discriminate].
  apply andb_true_iff in E2. rewrite !N.leb_le in E2. lia.
Qed.

Lemma mapM_cons {A B} (f : A -> M B) x l s :
  mapM f (x :: l) s = match f x s with
                      | Ret y s' => match mapM f l s' with
                                    | Ret ys s'' => Ret (y :: ys) s''
                                    | Panic p => Panic p | Diverge => Diverge end
                      | Panic p => Panic p | Diverge => Diverge end.
Proof.
  cbn [mapM]. unfold bind, ret. destruct (f x s); reflexivity.
Qed.

(** Reversing a text that starts with an entity. *)
Lemma reverse_scan_entity e rest before last : 
  In e [u "&amp;"; u "&lt;"; u "&gt;"; u "&quot;"; u "&#39;"; u "&#13;"; u "&#10;"; u "&#9;"] ->
  exists h, h_text h = e /\ cap_of h 1 = Some e /\
    scan (rx_re ENTITY_RE) before (e ++ rest) O last = Hit h :: scan (rx_re ENTITY_RE) (rev e ++ before) rest O true.
Proof.
  intros He. destruct (entity_match before e rest He) as (s & H1 & H2 & H3).
  destruct (match_at_moved _ _ _ _ H1) as (w & H4 & H5 & H6). rewrite H2 in H4.
  apply app_inv_tail in H4. subst w.
  assert (Hne : exists c r, e = c :: r).
  { cbn [In] in He. repeat (destruct He as [<-|He]; [lits; eauto|]). destruct He. }
  destruct Hne as (c & r & ->).
  exists (mk_hit_of ((c :: r) ++ rest) s). split; [exact H6|]. split; [exact H3|].
  simpl app at 1 3. rewrite scan_cons. simpl app in H1. rewrite H1.
  change (c :: r ++ rest) with ((c :: r) ++ rest). rewrite H6, H2. reflexivity.
Qed.

Lemma reverse_scan_plain c rest before last : c <> 38 ->
  scan (rx_re ENTITY_RE) before (c :: rest) O last = Lit c :: scan (rx_re ENTITY_RE) (c :: before) rest O false.
Proof. intros H. rewrite scan_cons, entity_no_match by auto. reflexivity. Qed.

Lemma scan_entity_nil before last : scan (rx_re ENTITY_RE) before [] O last = [].
Proof. destruct last; reflexivity. Qed.

Definition reverse_char (entity : str) : option str :=
  if seqb entity (u "&lt;") then Some (u "<")
  else if seqb entity (u "&gt;") then Some (u ">")
  else if seqb entity (u "&quot;") then Some (u """")
  else if seqb entity (u "&#39;") then Some (u "'")
  else if seqb entity (u "&#13;") then Some [10]
  else if seqb entity (u "&#10;") then Some [13]
  else if seqb entity (u "&#9;") then Some [9]
  else None.
Lemma reverse_entity_eq h e s : cap_of h 1 = Some e ->
  reverse_entity h s = match reverse_char e with Some x => Ret x s | None => Panic UnknownEntity end.
Proof.
  intros H. unfold reverse_entity, capx, bind. unfold cap_of in H. rewrite H. cbn [of_opt ret].
  unfold reverse_char. repeat (destruct (seqb e _); [reflexivity|]). reflexivity.
Qed.

(** What [reverse_encode_html] does to an escaped URL. *)
Lemma reverse_encode_gen : forall url before last s,
  exists r, mapM (replace_segM reverse_entity) (scan (rx_re ENTITY_RE) before (encode_html url false false) O last) s = r /\
  if contains_char 38 url then r = Panic UnknownEntity
  else exists l, r = Ret l s /\ List.concat l = url.
Proof.
  induction url as [|c url IH]; intros before last s.
  - cbn [encode_html flat_map]. rewrite scan_entity_nil. cbn. eexists; split; [reflexivity|]. exists []; auto.
  - cbn [encode_html flat_map]. fold (encode_html url false false).
    destruct (encode_char_cases false false c) as [(E & Hc & _)|[He Hc]].
    + rewrite E. cbn [app]. rewrite reverse_scan_plain by auto. rewrite mapM_cons. cbn [replace_segM].
      unfold ret at 1. destruct (IH (c :: before) false s) as (r & Hr & Hcase). rewrite Hr.
      cbn [contains_char existsb]. assert ((38 =? c) = false) as -> by (apply N.eqb_neq; auto).
      cbn [orb]. change (existsb (N.eqb 38) url) with (contains_char 38 url).
      destruct (contains_char 38 url).
      * rewrite Hcase. eexists; split; reflexivity.
      * destruct Hcase as (l & -> & Hl). eexists; split; [reflexivity|]. exists ([c] :: l).
        split; auto. cbn. rewrite Hl; reflexivity.
    + assert (Hent : In (encode_char false false c) [u "&amp;"; u "&lt;"; u "&gt;"; u "&quot;"; u "&#39;"; u "&#13;"; u "&#10;"; u "&#9;"]).
      { cbn [entities app In] in He. cbn [In]. tauto. }
      destruct (reverse_scan_entity _ (encode_html url false false) before last Hent) as (h & H1 & H2 & H3).
      rewrite H3, mapM_cons. cbn [replace_segM].
      destruct (IH (rev (encode_char false false c) ++ before) true s) as (r & Hr & Hcase).
      rewrite (reverse_entity_eq h _ s H2).
      cbn [contains_char existsb]. change (existsb (N.eqb 38) url) with (contains_char 38 url).
      assert (Hcc : c = 38 \/ c = 60 \/ c = 62).
      { unfold unsafe in Hc. intuition discriminate. }
      destruct Hcc as [ -> | [ -> | -> ] ].
      * eexists; split; reflexivity.
      * change (encode_char false false 60) with (u "&lt;") in *.
        change (reverse_char (u "&lt;")) with (Some (u "<")). cbn iota. rewrite Hr.
        change ((38 =? 60) || contains_char 38 url) with (contains_char 38 url).
        destruct (contains_char 38 url).
        -- rewrite Hcase; eexists; split; reflexivity.
        -- destruct Hcase as (l & -> & Hl). eexists; split; [reflexivity|]. exists (u "<" :: l).
           split; auto. cbn. rewrite Hl; reflexivity.
      * change (encode_char false false 62) with (u "&gt;") in *.
        change (reverse_char (u "&gt;")) with (Some (u ">")). cbn iota. rewrite Hr.
        change ((38 =? 62) || contains_char 38 url) with (contains_char 38 url).
        destruct (contains_char 38 url).
        -- rewrite Hcase; eexists; split; reflexivity.
        -- destruct Hcase as (l & -> & Hl). eexists; split; [reflexivity|]. exists (u ">" :: l).
           split; auto. cbn. rewrite Hl; reflexivity.
Qed.

Lemma reverse_encode url s :
  reverse_encode_html (encode_html url false false) s =
  if contains_char 38 url then Panic UnknownEntity else Ret url s.
Proof.
  unfold reverse_encode_html, replace_allM, segs, bind.
  destruct (reverse_encode_gen url [] false s) as (r & Hr & Hcase). rewrite Hr.
  destruct (contains_char 38 url); [rewrite Hcase; reflexivity|].
  destruct Hcase as (l & -> & <-). reflexivity.
Qed.

(** ** The statements of the properties *)
Lemma escape_inert text q l c : In c (encode_html text q l) ->
  c <> 60 /\ c <> 62 /\ (q = true -> c <> 34 /\ c <> 39) /\ (l = true -> c <> 9 /\ c <> 10 /\ c <> 13).
Proof. intros H. apply encode_html_safe in H. unfold unsafe in H. intuition. Qed.
Lemma escape_amp text q l a b : encode_html text q l = a ++ 38 :: b ->
  exists e rest, In e known_entities /\ 38 :: b = e ++ rest.
Proof.
  intros H. apply encode_html_amp in H as (e & rest & He & Hb). exists e, rest. split; auto.
  destruct q, l; cbn [entities app In known_entities] in *; tauto.
Qed.
Lemma swap_crlf_id text : ~ In 10 text -> ~ In 13 text -> map swap_crlf text = text.
Proof.
  induction text as [|c text IH]; intros H1 H2; [reflexivity|]. cbn [map]. rewrite IH.
  - f_equal. unfold swap_crlf. destruct (c =? 10) eqn:E1; [exfalso; apply H1; left; lia|].
    destruct (c =? 13) eqn:E2; [exfalso; apply H2; left; lia|]. reflexivity.
  - intros H; apply H1; right; exact H.
  - intros H; apply H2; right; exact H.
Qed.
Lemma escape_decode text q l : (l = true -> ~ In 10 text /\ ~ In 13 text) -> html_decode (encode_html text q l) = text.
Proof.
  destruct l; intros H; [|apply decode_encode]. rewrite decode_encode_ls. apply swap_crlf_id; apply H; reflexivity.
Qed.
Lemma escape_decode_refuted : html_decode (encode_html [10] false true) <> [10].
Proof. intros H. vm_compute in H. discriminate. Qed.
Lemma unescape_url_ok url s : ~ In 38 url -> reverse_encode_html (encode_html url false false) s = Ret url s.
Proof. intros H. rewrite reverse_encode. apply contains_char_nin in H. rewrite H; reflexivity. Qed.
Lemma unescape_url_panics url s : In 38 url ->
  reverse_encode_html (encode_html url false false) s = Panic UnknownEntity.
Proof. intros H. rewrite reverse_encode. apply contains_char_in in H. rewrite H; reflexivity. Qed.
Lemma attr_value_decode v : ~ In 10 v -> ~ In 13 v ->
  exists q body, quoteattr v = [q] ++ body ++ [q] /\ ~ In q body /\ html_decode body = v.
Proof.
  intros H1 H2. exists (fst (attr_body v)), (snd (attr_body v)). split; [apply quoteattr_body|].
  split; [apply attr_body_quote|]. rewrite attr_body_decode. apply swap_crlf_id; auto.
Qed.
Lemma attr_value_refuted : ~ (exists q body, quoteattr [97; 10; 98] = [q] ++ body ++ [q] /\ html_decode body = [97; 10; 98]).
Proof.
  intros (q & body & H1 & H2). change (quoteattr [97; 10; 98]) with ((34 :: u "a&#13;b") ++ [34]) in H1.
  change ([q] ++ body ++ [q]) with ((q :: body) ++ [q]) in H1.
  apply app_inj_tail in H1 as [H1 _]. injection H1 as _ H1. rewrite <- H1 in H2. vm_compute in H2. discriminate.
Qed.
(** The attributes a reader finds. *)
Lemma attributes_kept l : Forall (fun a => ~ In 10 (snd a) /\ ~ In 13 (snd a)) l ->
  forall l', (exists d, l' = filter d l /\ forall a, d a = true <-> valid_name (fst a)) ->
  attributes_of (join_html_attributes [] l) = Some l'.
Proof.
  intros Hl l' (d & -> & Hd). rewrite attributes_of_join. f_equal.
  induction Hl as [|[name v] l [H1 H2] _ IH]; [reflexivity|]. cbn [filter fst].
  assert (forallb is_valid_attribute_char name = d (name, v)) as ->.
  { apply eq_true_iff_eq. rewrite valid_name_iff, Hd. reflexivity. }
  destruct (d (name, v)); [|exact IH]. cbn [map fst snd]. rewrite IH. cbn [snd] in *.
  rewrite swap_crlf_id by auto. reflexivity.
Qed.
