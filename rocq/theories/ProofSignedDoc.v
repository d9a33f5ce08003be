(** Documents of signed blocks. *)
From Verif Require Import Str Unicode Regex RegexParse RegexSnips RegexTheory RegexAuto RegexGroups Lib ModelBase ModelHtml ModelUrl
  ModelAttrs ModelInline ModelParser SpecRegex ProofRegex ProofCharref SpecParse ProofParse Logic ProofWalk ProofState SpecState ProofMemory ProofCache ProofLinks ProofDoc
  SpecPlain ProofPlain SpecNewlines ProofNewlines ProofParas ProofTags ProofSections ProofBlocks SpecDoc ProofDocument SpecAtts ProofItems ProofItemsTop SpecSigned ProofSigAtts ProofSigSheet ProofSigned.
#[local] Arguments u : simpl never.

(** ** Literals in automata *)
Definition reach (A : auto) (q : nat) (w : str) : list nat :=
  fold_left (fun qs c => flat_map (fun d => let '(q, cl, q') := d in if mem q qs && in_cls cl c then [q'] else []) (au_trans A)) w [q].
Lemma reach_suf A w rest : forall qs q', In q' (fold_left (fun qs c => flat_map (fun d => let '(q, cl, q') := d in if mem q qs && in_cls cl c then [q'] else []) (au_trans A)) w qs) ->
  Suf A q' rest -> exists q, In q qs /\ Suf A q (w ++ rest).
Proof.
  induction w as [|c w IH]; intros qs q' H Hr; [exists q'; auto|]. cbn [fold_left] in H. destruct (IH _ _ H Hr) as (q1 & H1 & S1).
  apply in_flat_map in H1. destruct H1 as (((q, cl), q2) & Hd & Hq). destruct (mem q qs && in_cls cl c)%bool eqn:E; [|destruct Hq].
  destruct Hq as [<-|[]]. apply andb_prop in E. destruct E as [E1 E2]. exists q. split; [apply mem_in; auto|]. cbn [app]. eapply SufCons; eauto.
Qed.
Lemma suf_reach A q q' w rest : mem q' (reach A q w) = true -> Suf A q' rest -> Suf A q (w ++ rest).
Proof. intros H Hr. apply mem_in in H. destruct (reach_suf A w rest [q] q' H Hr) as (q1 & [<-|[]] & S1). exact S1. Qed.

(** ** Preformatted text: nothing that ends a paragraph, no br tag *)
Definition other (cs : str) : cls := mk_cls true (map (fun c => CRange c c) cs).
Definition calm : auto := mk_auto
  [(0, other (u "<"), 0); (0, ch 60, 1); (1, other (u "</bB"), 0); (1, ch 47, 2); (2, other (u "<ph"), 0); (2, ch 112, 3); (3, other (u "<>"), 0)]%nat 0%nat [0]%nat.
Lemma calm_quiet : never calm closing_re = true /\ never calm (rx_re BR_TAG_RE) = true.
Proof. split; vm_compute; reflexivity. Qed.
Lemma other_in c cs : ~ In c cs -> in_cls (other cs) c = true.
Proof.
  intros H. unfold other, in_cls. cbn [c_neg c_items]. apply negb_true_iff. apply existsb_false_in. intros x Hx. apply in_map_iff in Hx. destruct Hx as (d & <- & Hd).
  cbn [in_item]. destruct (N.leb_spec d c), (N.leb_spec c d); auto. assert (d = c) by lia. subst. contradiction.
Qed.
Lemma suf_plain A q w rest : In (q, other (u "<"), q) (au_trans A) -> ~ In 60 w -> Suf A q rest -> Suf A q (w ++ rest).
Proof.
  intros Ht Hw Hr. induction w as [|c w IH]; [exact Hr|]. cbn [app]. eapply SufCons; [exact Ht| |apply IH; intros F; apply Hw; right; auto].
  apply other_in. intros [F|[]]. apply Hw. left. auto.
Qed.
Lemma sig_spec T g l : sig_ok T g l -> forall x, In x l -> spec (t_restricted T) x.
Proof. intros (_ & (_ & H1 & _) & _ & H2 & _) x Hx. split; auto. Qed.
Lemma attributes_60 r l : (forall x, In x l -> spec r x) -> ~ In 60 (attributes r l) /\ ~ In 62 (attributes r l).
Proof. intros H. split; apply attributes_without; auto. Qed.
Lemma language_in l s : language l = Some s -> In (Lang s) l.
Proof. intros H. apply pick_in in H as (x & Hx & E). destruct x; try discriminate. apply some_inj in E. subst. exact Hx. Qed.
Lemma filter_spec r l : (forall x, In x l -> spec r x) -> forall x, In x (filter not_lang l) -> spec r x.
Proof. intros H x Hx. apply filter_In in Hx as [Hx _]. auto. Qed.
Lemma filter_same l : language l = None -> filter not_lang l = l.
Proof.
  unfold language. induction l as [|x l IH]; intros H; [reflexivity|]. cbn [pick] in H. destruct x; try discriminate; cbn [filter not_lang]; rewrite IH by exact H; reflexivity.
Qed.
Lemma attributes_nil r : attributes r [] = [].
Proof. destruct r; reflexivity. Qed.
Lemma bare_open r : inner_open r SigP [] = u "<p" ++ [] ++ u ">".
Proof. cbn [inner_open]. rewrite attributes_nil. reflexivity. Qed.
Lemma code_class_60 r l : (forall x, In x l -> spec r x) -> ~ In 60 (code_class l) /\ ~ In 62 (code_class l).
Proof.
  intros H. unfold code_class. destruct (language l) as [w|] eqn:E; [|split; intros []]. apply language_in in E. destruct (H _ E) as [_ Hl]. cbn [sig_item] in Hl.
  destruct (in_chars name_chars w); [|split; intros []]. pose proof (fun x E => lang_without w x Hl E) as Q.
  split; rewrite !in_app_iff; intros [F|[F|F]]; try (revert F; apply Q; reflexivity); vm_compute in F; intuition discriminate.
Qed.

Lemma no_items_ok el r : items_ok el r [].
Proof. split; [constructor|]. split; [intros x []|]. intros a n mid k b E. destruct a; discriminate. Qed.
Lemma no_place : in_place [].
Proof. exists [], [], []. repeat split. Qed.
Lemma closed_nil t : closed [] t.
Proof. left. intros a n b E. destruct a; discriminate. Qed.

Section Signed.
Variables (W : world) (T : textile).
Hypothesis uid_simple : simple_uid (t_uid T).
Notation tok n := (fragment_token T n).
Notation br := (br_tag T).
Notation rr := (t_restricted T).
Let uid_ok : uid_plain (t_uid T) = true := uid_simple_plain _ uid_simple.
Let uid_new : uid_fresh (t_uid T) := uid_simple_fresh _ uid_simple.

(** ** The shelf *)
Definition put (x : str) (s : pstate) : pstate := set_shelf (im_insert (tok (ps_ref_index s + 1)) x (ps_shelf s)) (set_ref_index (ps_ref_index s + 1) s).
Definition stored_in (g : signature) (t : str) : list str := match g with SigBc | SigPre => [encode_html t true false] | SigRaw => [t] | _ => [] end.
Definition puts (xs : list str) (s : pstate) : pstate := fold_left (fun s x => put x s) xs s.
(** What stands for the content. *)
Definition held (n : N) (g : signature) (t : str) : str := if is_text g then t else tok (n + 1).

Lemma names_ok g : match g with SigH n => 1 <= n <= 6 | _ => True end ->
  captures (rx_re FNID_RE) (sig_name g) = None /\ seqb (sig_name g) (u "p") = match g with SigP => true | _ => false end /\ In (sig_name g) SIGNATURES.
Proof.
  intros H. destruct g as [|k| | | |]; cbn [sig_name]; try (repeat split; vm_compute; tauto).
  assert (k = 1 \/ k = 2 \/ k = 3 \/ k = 4 \/ k = 5 \/ k = 6) as D by lia.
  repeat (destruct D as [->|D]; [repeat split; vm_compute; tauto|]). subst. repeat split; vm_compute; tauto.
Qed.
Lemma shape_of g l t s : sig_ok T g l -> block_shape W T (sig_name g) None t (sheet ElNone rr true l) (ba_html_attrs (sheet ElNone rr true l)) s =
  Ret (mk_blk (outer_open rr g l) (outer_close g) (inner_open rr g l) (inner_close g) (held (ps_ref_index s) g t) false) (puts (stored_in g t) s).
Proof.
  intros Hok. pose proof (sig_spec T g l Hok) as Hs. pose proof (proj1 Hok) as Hk. pose proof (attributes_written rr l Hs) as EA. rewrite <- (sheet_attrs ElNone rr true l) in EA. unfold block_shape, ba_to_string. destruct g as [|k| | | |]; cbn [sig_name].
  - change (seqb (u "p") (u "bq")) with false. change (seqb (u "p") (u "bc")) with false. change (seqb (u "p") (u "pre")) with false. change (seqb (u "p") (u "notextile")) with false. change (seqb (u "p") (u "###")) with false.
    cbv iota. rewrite EA. reflexivity.
  - assert (k = 1 \/ k = 2 \/ k = 3 \/ k = 4 \/ k = 5 \/ k = 6) as D by lia.
    assert (forall w, In w [u "bq"; u "bc"; u "pre"; u "notextile"; u "###"] -> seqb (heading_tag k) w = false) as Q.
    { intros w Hw. cbn [In] in Hw. repeat (destruct Hw as [<-|Hw]; [repeat (destruct D as [->|D]; [reflexivity|]); subst; reflexivity|]). destruct Hw. }
    rewrite !Q by (cbn [In]; tauto). rewrite EA. reflexivity.
  - change (seqb (u "bq") (u "bq")) with true. cbv iota. rewrite bind_ret. rewrite EA. reflexivity.
  - change (seqb (u "bc") (u "bq")) with false. change (seqb (u "bc") (u "bc")) with true. cbv iota. unfold bind. rewrite shelve_kept.
    rewrite sheet_lang. unfold outer_open, code_class. destruct (language l) as [w|] eqn:El.
    + pose proof (language_in l w El) as Hw. destruct (Hs _ Hw) as [Iw Sw]. cbn [item_ok sig_item] in Iw, Sw. cbv iota beta. rewrite code_lang_re by (auto; apply Iw).
      rewrite sheet_not_lang, sheet_attrs, attributes_written by (apply filter_spec; exact Hs). destruct (in_chars name_chars w); [|reflexivity].
      change (ba_html_attrs (ba_set_class (Some w) ba_default)) with [(u "class", w)]. unfold attrs_to_string. cbn [flat_map]. unfold attr_str. cbn [fst snd]. rewrite quote_lang by auto.
      unfold ret. do 2 f_equal. rewrite !app_nil_r. reflexivity.
    + cbv iota beta. rewrite filter_same by exact El. rewrite EA. reflexivity.
  - change (seqb (u "pre") (u "bq")) with false. change (seqb (u "pre") (u "bc")) with false. change (seqb (u "pre") (u "pre")) with true. cbv iota. unfold bind. rewrite shelve_kept, EA. reflexivity.
  - change (seqb (u "notextile") (u "bq")) with false. change (seqb (u "notextile") (u "bc")) with false. change (seqb (u "notextile") (u "pre")) with false. change (seqb (u "notextile") (u "notextile")) with true.
    cbv iota. unfold bind. rewrite shelve_kept. reflexivity.
Qed.
Lemma held_inert n g t : sig_text g t -> inert T (held n g t).
Proof.
  intros H. unfold held. destruct g as [|k| | | |]; cbn [is_text sig_text] in *; try (apply (para_inert T uid_new); exact H); apply (tok_inert T uid_simple).
Qed.
Lemma puts_own xs : forall s, ps_cache (puts xs s) = ps_cache s /\ ps_borrowed (puts xs s) = ps_borrowed s /\ ps_notes (puts xs s) = ps_notes s /\ forall c, puts xs (set_cache c s) = set_cache c (puts xs s).
Proof.
  induction xs as [|x xs IH]; intros s; [repeat split; reflexivity|]. unfold puts in *. cbn [fold_left]. destruct (IH (put x s)) as (E1 & E2 & E3 & E4). rewrite E1, E2, E3. repeat split.
  intros c. change (put x (set_cache c s)) with (set_cache c (put x s)). apply E4.
Qed.
Lemma new_of fuel n g l t s : (0 < fuel)%nat -> sig_ok T g l -> sig_text g t -> @cache_ok (own T) (ps_cache s) -> ps_borrowed s = false ->
  exists c, @cache_ok (own T) c /\
  block_new W T (graf_n W T fuel (S n)) (sig_name g) (items_text l) None t s =
  Ret (mk_blk (outer_open rr g l) (outer_close g) (inner_open rr g l) (inner_close g) (held (ps_ref_index s) g t) false) (puts (stored_in g t) (set_cache c s)).
Proof.
  intros Hf Hg Ht Hc Hn. destruct (names_ok g (proj1 Hg)) as (F1 & F2 & F3).
  pose proof (graf_inert W T uid_ok fuel n _ Hf (held_inert (ps_ref_index s) g t Ht)) as G.
  destruct (puts_own (stored_in g t) s) as (E1 & E2 & _ & E4).
  destruct (G (puts (stored_in g t) s)) as (c & Hc' & E); [rewrite E1; exact Hc|rewrite E2; exact Hn|].
  exists c. split; auto. unfold block_new. rewrite (bind_eq _ _ _ _ (parse_sheet ElNone rr l true s (ltac:(discriminate)) (proj1 (proj2 Hg)))), bind_ret.
  assert ((if seqb (sig_name g) (u "p") then notedef <- replace_allM (rx_re NOTEDEF_RE) (parse_note_defs T (graf_n W T fuel (S n))) t;; ret (is_empty notedef) else ret false) s = Ret false s) as En.
  { rewrite F2. destruct g; try reflexivity. cbn [sig_text] in Ht. unfold bind. rewrite no_match_replaceM by (apply para_block; auto; cbn; tauto). unfold ret.
    destruct t; [destruct (paragraph_ne [] Ht eq_refl)|]. reflexivity. }
  unfold bind at 1. rewrite En.
  assert (block_footnote T (sig_name g) (items_text l) t (sheet ElNone rr true l) = ret (sig_name g, sheet ElNone rr true l, t)) as -> by (unfold block_footnote; rewrite F1; reflexivity).
  rewrite bind_ret. unfold bind at 1. rewrite shape_of by auto. cbn [bk_eat bk_content bk_outer_opening bk_outer_closing bk_inner_opening bk_inner_closing].
  unfold bind. rewrite E, E4. reflexivity.
Qed.

(** ** Line breaks around it *)
Definition is_b (c : N) : bool := (c =? 98) || (c =? 66).
Definition is_r (c : N) : bool := (c =? 114) || (c =? 82).
Fixpoint safe (w : str) : bool :=
  match w with
  | [] => true
  | c :: w' => (if c =? 60 then match w' with x :: y :: _ => negb (is_b x && is_r y) | [x] => negb (is_b x) | [] => false end else true) && safe w'
  end.
Lemma brs_safe x y w a b : safe w = true -> brs x y a b -> brs x y (w ++ a) (w ++ b).
Proof.
  intros Hw Hab. induction w as [|c w IH]; [exact Hab|]. cbn [safe] in Hw. apply andb_prop in Hw. destruct Hw as [H1 H2]. cbn [app].
  destruct (N.eqb_spec c 60) as [->|Hc]; [|apply brs_char; auto]. apply brs_other; auto. unfold is_b, is_r in H1.
  destruct w as [|p w]; [discriminate|]. destruct w as [|q w]; cbn [app].
  - destruct a as [|z a]; [exact I|]. cbn [not_br]. intros [->| ->] _; discriminate.
  - cbn [not_br]. intros [->| ->] [->| ->]; discriminate.
Qed.
Lemma brs_plain x y w a b : ~ In 60 w -> brs x y a b -> brs x y (w ++ a) (w ++ b).
Proof.
  intros H Hab. induction w as [|c w IH]; [exact Hab|]. cbn [app]. apply brs_char; [intros ->; apply H; left; auto|]. apply IH. intros F. apply H. right. auto.
Qed.
Lemma outer_open_brs x y g l a b : (forall x, In x l -> spec rr x) -> brs x y a b -> brs x y (outer_open rr g l ++ a) (outer_open rr g l ++ b).
Proof.
  intros Hl Hab. destruct (attributes_60 rr l Hl) as (L60 & _). destruct (attributes_60 rr _ (filter_spec rr l Hl)) as (F60 & _). destruct (code_class_60 rr l Hl) as (C60 & _).
  destruct g; cbn [outer_open]; try exact Hab; rewrite <- !app_assoc.
  - apply brs_safe; [reflexivity|]. apply brs_plain; auto. apply brs_safe; [reflexivity|]. apply brs_safe; [reflexivity|]. exact Hab.
  - apply brs_safe; [reflexivity|]. apply brs_plain; auto. apply (brs_safe x y (u "><code")); [reflexivity|]. apply brs_plain; auto. apply brs_safe; [reflexivity|]. exact Hab.
  - apply brs_safe; [reflexivity|]. apply brs_plain; auto. apply brs_safe; [reflexivity|]. exact Hab.
Qed.
Lemma outer_close_brs x y g a b : brs x y a b -> brs x y (outer_close g ++ a) (outer_close g ++ b).
Proof. intros Hab. destruct g; cbn [outer_close]; try exact Hab; (apply brs_safe; [reflexivity|exact Hab]). Qed.
Definition sig_tag (g : signature) : str := match g with SigH k => heading_tag k | _ => u "p" end.
Lemma sig_tag_in g : match g with SigH n => 1 <= n <= 6 | _ => True end -> In (sig_tag g) PBR_NAMES.
Proof. destruct g; intros H; try (left; reflexivity). apply heading_name. exact H. Qed.
Definition indent (g : signature) : str := match g with SigBq => [9] | _ => [] end.
Lemma inner_tagged g l x : is_text g = true -> inner_open rr g l ++ x ++ inner_close g = indent g ++ tagged (sig_tag g) (attributes rr l) x.
Proof.
  intros H. destruct g; try discriminate; cbn [inner_open inner_close sig_tag indent]; unfold tagged; rewrite <- !app_assoc; reflexivity.
Qed.
Lemma tagged_brs x y tag att t a b : is_br x -> In tag PBR_NAMES -> ~ In 60 att -> ~ In 60 t -> brs x y a b ->
  brs x y (tagged tag att (breaks x t) ++ a) (tagged tag att (breaks y t) ++ b).
Proof.
  intros Hx Ht Ha Hn Hab. destruct (pbr_name_first tag Ht) as (c & w & Et & Hc & N60).
  assert (forall z q, tagged tag att z ++ q = (60 :: c :: w) ++ att ++ [62] ++ z ++ 60 :: (47 :: tag ++ [62]) ++ q) as E.
  { intros z q. rewrite Et. unfold tagged. cbn [app]. repeat (rewrite <- ?app_assoc; cbn [app]). reflexivity. }
  rewrite !E. apply (brs_safe x y (60 :: c :: w)).
  { assert (~ In 60 w) as Nw by (intros F; apply N60; rewrite Et; right; auto).
    assert (safe w = true) as Sw by (clear - Nw; induction w as [|d w IH]; [reflexivity|]; cbn [safe]; destruct (N.eqb_spec d 60) as [->|]; [destruct Nw; left; auto|]; apply IH; intros F; apply Nw; right; auto).
    cbn [safe]. rewrite Sw. unfold is_b, is_r. destruct Hc as [->| ->]; cbn; destruct w; reflexivity. }
  apply brs_plain; auto. apply brs_plain; [intros [F|[]]; discriminate|]. apply breaks_brs; auto; [discriminate|].
  apply brs_other; [cbn [app]; destruct ((tag ++ [62]) ++ a); cbn; intuition discriminate|]. apply brs_plain; auto. intros [F|F]; [discriminate|]. apply in_app_or in F. destruct F as [F|[F|[]]]; [auto|discriminate].
Qed.
Definition staged_in (n : N) (g : signature) (t : str) : str := if is_text g then breaks br t else tok (n + 1).
Lemma text_para g t : is_text g = true -> sig_text g t -> accepts paragraph t.
Proof. destruct g; try discriminate; auto. Qed.
Lemma quiet_piece (o c : bool) n g l t s : sig_ok T g l -> sig_text g t ->
  let w x := (if o then outer_open rr g l else []) ++ inner_open rr g l ++ x ++ inner_close g ++ (if c then outer_close g else []) in
  exists v, do_p_br T (w (held n g t)) s = Ret v s /\ replace_all (rx_re BR_TAG_RE) (fun _ => br) v = w (staged_in n g t).
Proof.
  intros Hok Ht w. pose proof (sig_spec T g l Hok) as Hl. pose proof (proj1 Hok) as Hk. destruct (attributes_60 rr l Hl) as (L60 & L62). destruct (attributes_60 rr _ (filter_spec rr l Hl)) as (F60 & _). destruct (code_class_60 rr l Hl) as (C60 & _). unfold w, held, staged_in. destruct (is_text g) eqn:Eg.
  - pose proof (text_para g t Eg Ht) as Hp. pose proof (para_60 t Hp) as H60. pose proof (sig_tag_in g Hk) as Htag.
    set (pre := (if o then outer_open rr g l else []) ++ indent g). set (post := if c then outer_close g else []).
    assert (forall x, (if o then outer_open rr g l else []) ++ inner_open rr g l ++ x ++ inner_close g ++ post = pre ++ tagged (sig_tag g) (attributes rr l) x ++ post) as E.
    { intros x. unfold pre. rewrite <- app_assoc. f_equal. rewrite !app_assoc. f_equal. rewrite <- inner_tagged by auto. rewrite app_assoc. reflexivity. }
    rewrite !E. eexists. split.
    + apply do_p_br_wrap; auto using nl_space_para.
      * apply attributes_head.
      * unfold pre. intros a b F. destruct g; try discriminate; cbn [outer_open indent] in F; try (destruct o; destruct a; discriminate). destruct o; [|destruct a as [|? [|]]; discriminate].
        assert (exists q, (u "<blockquote" ++ attributes rr l ++ u ">" ++ [10]) ++ [9] = 60 :: 98 :: q /\ ~ In 60 (98 :: q)) as (q & Eq & Nq).
        { eexists. split; [reflexivity|]. intros [G|G]; [discriminate|]. rewrite !in_app_iff in G. destruct G as [[G|[G|[G|G]]]|G]; try (exact (L60 G)); vm_compute in G; intuition discriminate. }
        rewrite Eq in F. destruct a as [|z a]; cbn [app] in F; inversion F; subst; [eexists _, _; split; [reflexivity|split; discriminate]|]. destruct Nq. rewrite H1. apply in_or_app. right. left. auto.
      * unfold post. intros a b F. destruct c; [|destruct a; discriminate]. destruct g; try discriminate; cbn [outer_close] in F; try (destruct a; discriminate).
        change ([10] ++ u "</blockquote>") with (10 :: 60 :: 47 :: 98 :: u "lockquote>") in F.
        assert (~ In 60 (47 :: 98 :: u "lockquote>")) as Nq by (vm_compute; intuition discriminate).
        destruct a as [|z a]; cbn [app] in F; [discriminate|]. injection F as _ F. destruct a as [|z' a]; cbn [app] in F; [injection F as F; subst b; exists 98, (u "lockquote>"); split; [reflexivity|split; discriminate]|].
        injection F as _ F. destruct Nq. rewrite F. apply in_or_app. right. left. auto.
    + unfold replace_all, segs. apply brs_tag; [apply br_is|].
      rewrite <- (app_nil_r post). unfold pre. rewrite <- app_assoc.
      assert (forall a b, brs br br a b -> brs br br ((if o then outer_open rr g l else []) ++ a) ((if o then outer_open rr g l else []) ++ b)) as P1 by (intros a b Hab; destruct o; [apply outer_open_brs; auto|exact Hab]).
      assert (forall a b, brs br br a b -> brs br br (post ++ a) (post ++ b)) as P2 by (intros a b Hab; unfold post; destruct c; [apply outer_close_brs; auto|exact Hab]).
      apply P1. apply brs_safe; [destruct g; reflexivity|]. apply tagged_brs; auto using br_is. apply P2. constructor.
  - set (v := (if o then outer_open rr g l else []) ++ inner_open rr g l ++ tok (n + 1) ++ inner_close g ++ (if c then outer_close g else [])).
    assert (accepts calm v) as A.
    { unfold accepts, v. cbn [au_start calm]. 
      assert (forall x q, In q [0%nat] -> ~ In 60 x -> forall r, Suf calm q r -> Suf calm q (x ++ r)) as P by (intros x q [<-|[]] Hx r Hr; apply suf_plain; auto; left; reflexivity).
      assert (~ In 60 (tok (n + 1))) as Nt by (apply (tok_without T uid_simple); reflexivity).
      assert (Suf calm 0 []) as S0 by (apply SufNil; cbn; tauto).
      assert (Suf calm 0 (if c then outer_close g else [])) as Sc.
      { destruct c; [|exact S0]. destruct g; try discriminate; cbn [outer_close]; try exact S0; [rewrite <- (app_nil_r (u "</code></pre>"))|rewrite <- (app_nil_r (u "</pre>"))]; (eapply suf_reach; [|exact S0]; vm_compute; reflexivity). }
      assert (Suf calm 0 (inner_open rr g l ++ tok (n + 1) ++ inner_close g ++ (if c then outer_close g else []))) as Si.
      { destruct g; try discriminate; cbn [inner_open inner_close app]; apply P; auto; left; reflexivity. }
      destruct o; [|exact Si]. revert Si. generalize (inner_open rr g l ++ tok (n + 1) ++ inner_close g ++ (if c then outer_close g else [])). intros r Si.
      destruct g; try discriminate; cbn [outer_open]; rewrite <- ?app_assoc; try exact Si.
      - apply (suf_reach calm 0 0); [vm_compute; reflexivity|]. apply P; [left; reflexivity|exact F60|]. apply (suf_reach calm 0 0 (u "><code")); [vm_compute; reflexivity|]. apply P; [left; reflexivity|exact C60|]. apply P; [left; reflexivity|vm_compute; intuition discriminate|exact Si].
      - apply (suf_reach calm 0 0); [vm_compute; reflexivity|]. apply P; [left; reflexivity|exact L60|]. apply P; [left; reflexivity|vm_compute; intuition discriminate|exact Si]. }
    exists v. split.
    + unfold do_p_br. apply no_match_replaceM. apply pbr_needs_closing. eapply never_ok; [exact A|exact (proj1 calm_quiet)].
    + apply replace_all_no_match. eapply never_ok; [exact A|exact (proj2 calm_quiet)].
Qed.

(** ** The loop *)
Definition total (a : block_acc) : str := List.concat (rev (bl_out a)) ++ (if is_empty (bl_ext a) then [] else bl_closing a).
Definition good (a : block_acc) : Prop := bl_ext a <> [] -> bl_out a <> [].
Lemma push_concat x out : out <> [] -> List.concat (rev (push_last x out)) = List.concat (rev out) ++ x.
Proof. intros H. destruct out as [|o out]; [congruence|]. cbn [push_last rev]. rewrite !concat_app. cbn [List.concat]. rewrite !app_nil_r, app_assoc. reflexivity. Qed.
Lemma closed_total a : good a -> List.concat (rev (if is_empty (bl_ext a) then bl_out a else push_last (bl_closing a) (bl_out a))) = total a.
Proof.
  intros H. unfold total, good in *. destruct (bl_ext a) as [|c e]; cbn [is_empty]; [rewrite app_nil_r; reflexivity|]. apply push_concat, H. discriminate.
Qed.
Definition allowed_sig (g : signature) : Prop := t_lite T = true -> lite_sig g = true.
Lemma sig_known g : match g with SigH n => 1 <= n <= 6 | _ => True end -> allowed_sig g -> In (sig_name g) (known_tag (t_lite T)).
Proof.
  intros Hk Hl. unfold known_tag, allowed_sig in *. destruct (t_lite T); [|apply (names_ok g Hk)]. specialize (Hl eq_refl). destruct g; try discriminate; cbn; tauto.
Qed.
Lemma name_trim tag w : In tag (known_tag (t_lite T)) -> is_empty (trim (tag ++ w)) = false.
Proof.
  intros H. assert (exists c r, tag = c :: r /\ is_ws c = false) as (c & r & -> & Hc).
  { unfold known_tag in H. destruct (t_lite T); cbn [In SIGNATURES] in H; repeat (destruct H as [<-|H]; [eexists _, _; split; reflexivity|]); destruct H. }
  destruct (is_empty _) eqn:E; auto. apply is_empty_nil in E. unfold trim in E. apply trim_by_nil in E. cbn [app forallb] in E. rewrite Hc in E. discriminate.
Qed.
Definition starting (ext : bool) (g : signature) (l : list item) (t : str) : str := sig_name g ++ items_text l ++ 46 :: dots ext ++ 32 :: t.
Lemma dots_empty ext : is_empty (dots ext) = negb ext.
Proof. destruct ext; reflexivity. Qed.
Lemma signed_step fuel n ext g l t a s : (0 < fuel)%nat -> sig_ok T g l -> closed l t -> sig_text g t -> allowed_sig g -> good a -> @cache_ok (own T) (ps_cache s) -> ps_borrowed s = false ->
  exists a' c, @cache_ok (own T) c /\ block_step W T (graf_n W T fuel (S n)) a (starting ext g l t) s = Ret a' (puts (stored_in g t) (set_cache c s)) /\
    List.concat (rev (bl_out a')) = total a ++ bl_ws a ++ outer_open rr g l ++ inner_open rr g l ++ staged_in (ps_ref_index s) g t ++ inner_close g ++ (if ext then [] else outer_close g) /\
    bl_out a' <> [] /\ bl_ws a' = [] /\ bl_eat_ws a' = false /\ bl_ext a' = dots ext /\ bl_tag a' = sig_name g /\ bl_atts a' = items_text l /\ bl_cite a' = None /\ bl_closing a' = outer_close g.
Proof.
  intros Hf Hg Hcl Ht Hl Ha Hc Hn. pose proof (sig_known g (proj1 Hg) Hl) as Hs.
  destruct (new_of fuel n g l t s Hf Hg Ht Hc Hn) as (c & Hc' & E).
  destruct (signed_captures rr (t_lite T) ext (sig_name g) l t Hs (proj1 (proj2 Hg)) (proj1 (proj2 (proj2 Hg))) (proj1 (proj2 (proj2 (proj2 Hg)))) Hcl) as (h & Eh & C1 & C2 & C3 & C4 & C5).
  destruct (quiet_piece true (negb ext) (ps_ref_index s) g l t (puts (stored_in g t) (set_cache c s)) Hg Ht) as (v & Ev & Er).
  assert (block_step W T (graf_n W T fuel (S n)) a (starting ext g l t) s =
    Ret (mk_bl ((bl_ws a ++ replace_all (rx_re BR_TAG_RE) (fun _ => br) v) :: (if is_empty (bl_ext a) then bl_out a else push_last (bl_closing a) (bl_out a)))
           [] false (dots ext) (sig_name g) (items_text l) None (outer_close g) false) (puts (stored_in g t) (set_cache c s))) as Es.
  { unfold block_step, starting. rewrite (name_trim _ _ Hs), Eh. unfold cap_or, cap_opt. rewrite C1, C2, C3, C4, C5.
    destruct (if is_empty (bl_ext a) then (u "p", [], None, false) else (bl_tag a, bl_atts a, bl_cite a, bl_eat a)) as [[[x1 x2] x3] x4].
    rewrite bind_assoc. unfold bind at 1. rewrite E. cbn [bk_eat bk_content bk_outer_opening bk_outer_closing bk_inner_opening bk_inner_closing]. rewrite bind_ret, dots_empty.
    unfold bind. rewrite Ev. rewrite negb_involutive, andb_false_r. reflexivity. }
  rewrite Es. eexists _, c. split; [exact Hc'|]. split; [reflexivity|]. cbn [bl_out bl_ws bl_eat_ws bl_ext bl_tag bl_atts bl_cite bl_closing].
  split; [|repeat split; discriminate]. cbn [rev]. rewrite concat_app. cbn [List.concat]. rewrite app_nil_r, Er, <- (closed_total a Ha). destruct ext; reflexivity.
Qed.
Definition more_ok (g : signature) (t : str) : Prop := is_text g = false -> unsigned t /\ exists c, In c t /\ is_ws c = false.
Lemma more_step fuel n g l t a s : (0 < fuel)%nat -> sig_ok T g l -> sig_text g t -> more_ok g t ->
  bl_ext a = [46] -> bl_out a <> [] -> bl_tag a = sig_name g -> bl_atts a = items_text l -> bl_cite a = None ->
  @cache_ok (own T) (ps_cache s) -> ps_borrowed s = false ->
  exists a' c, @cache_ok (own T) c /\ block_step W T (graf_n W T fuel (S n)) a t s = Ret a' (puts (stored_in g t) (set_cache c s)) /\
    List.concat (rev (bl_out a')) = List.concat (rev (bl_out a)) ++ bl_ws a ++ inner_open rr g l ++ staged_in (ps_ref_index s) g t ++ inner_close g /\
    bl_out a' <> [] /\ bl_ws a' = [] /\ bl_eat_ws a' = false /\ bl_ext a' = [46] /\ bl_tag a' = sig_name g /\ bl_atts a' = items_text l /\ bl_cite a' = None /\ bl_closing a' = outer_close g.
Proof.
  intros Hf Hg Ht Hm Ha Ho At Aa Ac Hc Hn.
  destruct (new_of fuel n g l t s Hf Hg Ht Hc Hn) as (c & Hc' & E).
  destruct (quiet_piece false false (ps_ref_index s) g l t (puts (stored_in g t) (set_cache c s)) Hg Ht) as (v & Ev & Er). cbv beta zeta iota in Ev, Er. rewrite app_nil_r in Ev, Er. cbn [app] in Ev, Er.
  assert (is_empty (trim t) = false) as Et.
  { destruct (is_text g) eqn:Eg; [apply para_trim, (text_para g); auto|]. destruct (Hm Eg) as (_ & x & Hx & Hw).
    destruct (is_empty _) eqn:F; auto. apply is_empty_nil in F. unfold trim in F. apply trim_by_nil in F. rewrite forallb_forall in F. rewrite (F x Hx) in Hw. discriminate. }
  assert (captures (rx_re (if t_lite T then TEXTILE_LIGHT_TAG_RE else TEXTILE_TAG_RE)) t = None) as Eh.
  { destruct (is_text g) eqn:Eg; [|apply unsigned_quiet, Hm; auto]. apply captures_no_match. pose proof (text_para g t Eg Ht). destruct (t_lite T); apply para_block; auto; cbn; tauto. }
  assert (is_empty (held (ps_ref_index s) g t) || (seqb (sig_name g) (u "p") && negb (has_raw_text (held (ps_ref_index s) g t))) = false) as Ew.
  { destruct (names_ok g (proj1 Hg)) as (_ & F2 & _). rewrite F2. unfold held. destruct (is_text g) eqn:Eg.
    - pose proof (text_para g t Eg Ht) as Hp. rewrite (para_raw t Hp). rewrite andb_false_r. destruct t; [destruct (paragraph_ne [] Hp eq_refl)|reflexivity].
    - pose proof (tok_ne T uid_simple (ps_ref_index s + 1)). destruct (tok (ps_ref_index s + 1)); [congruence|]. destruct g; try discriminate; reflexivity. }
  assert (block_step W T (graf_n W T fuel (S n)) a t s =
    Ret (mk_bl (push_last (bl_ws a ++ replace_all (rx_re BR_TAG_RE) (fun _ => br) v) (bl_out a)) [] false [46] (sig_name g) (items_text l) None (outer_close g) false)
        (puts (stored_in g t) (set_cache c s))) as Es.
  { unfold block_step. rewrite Et, Eh, Ha. change (is_empty [46]) with false. cbv iota. rewrite At, Aa, Ac. unfold anonymous_block at 1. change (is_empty [46]) with false. cbn [negb orb].
    rewrite !bind_assoc. unfold bind at 1. rewrite E. cbn [bk_eat bk_content bk_outer_opening bk_outer_closing bk_inner_opening bk_inner_closing]. rewrite bind_ret, Ew. cbn [fst snd]. rewrite bind_ret.
    unfold bind. rewrite Ev. reflexivity. }
  rewrite Es. eexists _, c. split; [exact Hc'|]. split; [reflexivity|]. cbn [bl_out bl_ws bl_eat_ws bl_ext bl_tag bl_atts bl_cite bl_closing].
  split; [|repeat split; destruct (bl_out a); [congruence|discriminate]]. rewrite push_concat, Er by auto. reflexivity.
Qed.
Lemma plain_step fuel n t a s : (0 < fuel)%nat -> accepts paragraph t -> bl_ext a = [] -> @cache_ok (own T) (ps_cache s) -> ps_borrowed s = false ->
  exists a' c, @cache_ok (own T) c /\ block_step W T (graf_n W T fuel (S n)) a t s = Ret a' (set_cache c s) /\
    List.concat (rev (bl_out a')) = List.concat (rev (bl_out a)) ++ bl_ws a ++ inner_open rr SigP [] ++ breaks br t ++ inner_close SigP /\ bl_ws a' = [] /\ bl_eat_ws a' = false /\ bl_ext a' = [].
Proof.
  intros Hf Ht Ha Hc Hn. destruct (block_stage W T uid_simple fuel n (Para t) a s Hf Ht (fun _ => eq_refl) Ha Hc Hn) as (a' & c & Hc' & E & O & W1 & X1 & Y1).
  exists a', c. split; auto. split; [exact E|]. split; [|auto]. rewrite O. cbn [rev]. rewrite concat_app. cbn [List.concat]. rewrite app_nil_r. rewrite bare_open. reflexivity.
Qed.
Lemma comment_step fuel n t a s : t_lite T = false -> good a ->
  block_step W T (graf_n W T fuel (S n)) a (u "###. " ++ t) s =
  Ret (mk_bl (if is_empty (bl_ext a) then bl_out a else push_last (bl_closing a) (bl_out a)) (bl_ws a) true [] (u "###") [] None [] true) s.
Proof.
  intros Hl Ha. assert (In (u "###") (known_tag (t_lite T))) as Hs by (rewrite Hl; vm_compute; tauto).
  destruct (signed_captures rr (t_lite T) false (u "###") [] t Hs (no_items_ok ElNone rr) no_place (fun x H => match H with end) (closed_nil t)) as (h & Eh & C1 & C2 & C3 & C4 & C5).
  change (u "###" ++ items_text [] ++ 46 :: dots false ++ 32 :: t) with (u "###. " ++ t) in Eh.
  unfold block_step. change (u "###. " ++ t) with (u "###" ++ [46; 32] ++ t) at 1. rewrite (name_trim _ _ Hs), Eh. unfold cap_or, cap_opt. rewrite C1, C2, C3, C4, C5.
  destruct (if is_empty (bl_ext a) then (u "p", [], None, false) else (bl_tag a, bl_atts a, bl_cite a, bl_eat a)) as [[[x1 x2] x3] x4].
  assert (block_new W T (graf_n W T fuel (S n)) (u "###") (items_text []) None t s = Ret (mk_blk [] [] [] [] [] true) s) as E.
  { unfold block_new. rewrite (bind_eq _ _ _ _ (parse_sheet ElNone rr [] true s (ltac:(discriminate)) (no_items_ok ElNone rr))), bind_ret.
    change (seqb (u "###") (u "p")) with false. cbv iota. rewrite bind_ret.
    assert (block_footnote T (u "###") (items_text []) t (sheet ElNone rr true []) = ret (u "###", sheet ElNone rr true [], t)) as -> by reflexivity.
    rewrite bind_ret. reflexivity. }
  rewrite bind_assoc. unfold bind at 1. rewrite E. cbn [bk_eat bk_content bk_outer_opening bk_outer_closing bk_inner_opening bk_inner_closing]. rewrite bind_ret.
  reflexivity.
Qed.
End Signed.
