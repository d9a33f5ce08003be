(** Documents of signed blocks. *)
From Verif Require Import Str Unicode Regex RegexParse RegexSnips RegexTheory RegexAuto RegexGroups Lib ModelBase ModelHtml ModelUrl
  ModelAttrs ModelInline ModelParser SpecRegex ProofRegex ProofCharref SpecParse ProofParse Logic ProofWalk ProofState SpecState ProofMemory ProofCache ProofLinks ProofDoc
  SpecPlain ProofPlain SpecNewlines ProofNewlines ProofParas ProofTags ProofSections ProofBlocks SpecDoc ProofDocument SpecAtts ProofItems SpecSigned ProofSigAtts ProofSigSheet ProofSigned ProofSignedDoc ProofSignedPage ProofSignedEnd Samples.
#[local] Arguments u : simpl never.

Section Top.
Variables (W : world) (T : textile).
Hypothesis uid_simple : simple_uid (t_uid T).
Notation br := (br_tag T).
Notation fb := (final_br T).
Notation rr := (t_restricted T).

(** ** The end *)
Definition ended (a : str) : Prop := a = [] \/ exists r, a = 10 :: r.
Lemma inner_brs g l t a b : sig_ok T g l -> sig_text g t -> brs br fb a b -> (g = SigRaw -> ended a) -> brs br fb (inner rr br g l t ++ a) (inner rr fb g l t ++ b).
Proof.
  intros Hok Ht Hab Ha. pose proof (proj1 Hok) as Hk. destruct (attributes_60 rr l (sig_spec T g l Hok)) as (L60 & _). unfold inner. destruct (is_text g) eqn:Eg.
  - replace (inside br g t) with (breaks br t) by (destruct g; try discriminate; reflexivity). replace (inside fb g t) with (breaks fb t) by (destruct g; try discriminate; reflexivity).
    rewrite !inner_tagged by auto. rewrite <- !app_assoc. apply brs_safe; [destruct g; reflexivity|]. apply tagged_brs; auto using br_is, sig_tag_in. apply para_60, (text_para g); auto.
  - destruct g; try discriminate; cbn [inner_open inner_close inside app]; rewrite ?app_nil_r.
    + apply brs_plain; auto. apply entities_60.
    + apply brs_plain; auto. apply entities_60.
    + apply raw_brs; auto; [apply Ht|]. apply Ha. reflexivity.
Qed.
Lemma inners_brs g l ts a b : sig_ok T g l -> (forall t, In t ts -> sig_text g t) -> brs br fb a b -> (g = SigRaw -> ended a) ->
  brs br fb (sections (map (inner rr br g l) ts) ++ a) (sections (map (inner rr fb g l) ts) ++ b).
Proof.
  intros Hg Ht Hab Ha. induction ts as [|t ts IH]; [exact Hab|]. destruct ts as [|t' ts].
  - cbn [map sections]. apply inner_brs; auto. apply Ht. left. auto.
  - cbn [map] in *. rewrite (sections_cons (inner rr br g l t)), (sections_cons (inner rr fb g l t)) by discriminate. rewrite <- !app_assoc. apply inner_brs; auto; [apply Ht; left; auto| |intros _; right; eexists; reflexivity].
    cbn [app]. apply brs_char; [discriminate|]. apply brs_char; [discriminate|]. apply IH. intros; apply Ht; right; auto.
Qed.
Lemma group_brs g l ts a b : sig_ok T g l -> (forall t, In t ts -> sig_text g t) -> brs br fb a b -> ended a -> brs br fb (group rr br g l ts ++ a) (group rr fb g l ts ++ b).
Proof.
  intros Hg Ht Hab Ha. unfold group. rewrite <- !app_assoc. apply outer_open_brs; [exact (sig_spec T g l Hg)|]. apply inners_brs; auto; [apply outer_close_brs; auto|]. intros ->. exact Ha.
Qed.
Definition pairs (x : str) (ps : list part) : list (signature * list item * list str) :=
  flat_map (fun p => match p with Anonymous t => [(SigP, [], [t])] | Signed g l t => [(g, l, [t])] | Extended g l t more => [(g, l, t :: more)] | Comment _ => [] end) ps.
Lemma page_pairs x ps : page_html rr x ps = sections (map (fun d => let '(g, l, ts) := d in group rr x g l ts) (pairs x ps)).
Proof.
  unfold page_html, pairs. f_equal. induction ps as [|p ps IH]; [reflexivity|]. cbn [flat_map]. rewrite map_app, IH. destruct p; reflexivity.
Qed.
Lemma pairs_fit x ps g l ts : (forall p, In p ps -> fit T p) -> In (g, l, ts) (pairs x ps) -> sig_ok T g l /\ (forall t, In t ts -> sig_text g t) /\ ts <> [].
Proof.
  intros H Hi. apply in_flat_map in Hi. destruct Hi as (p & Hp & Hi). specialize (H p Hp). destruct p as [t|g' l' t|g' l' t more|t]; cbn [fit] in H; [| | |destruct Hi]; destruct Hi as [Hi|[]]; inversion Hi; subst.
  - split; [apply bare_ok; exact uid_simple|]. split; [intros y [<-|[]]; exact H|discriminate].
  - split; [tauto|]. split; [intros y [<-|[]]; tauto|discriminate].
  - split; [tauto|]. split; [intros y Hy; apply H; exact Hy|discriminate].
Qed.
Lemma groups_brs ds : (forall g l ts, In (g, l, ts) ds -> sig_ok T g l /\ (forall t, In t ts -> sig_text g t) /\ ts <> []) ->
  brs br fb (sections (map (fun d => let '(g, l, ts) := d in group rr br g l ts) ds)) (sections (map (fun d => let '(g, l, ts) := d in group rr fb g l ts) ds)).
Proof.
  induction ds as [|[[g l] ts] ds IH]; intros H; [constructor|]. destruct (H g l ts (or_introl eq_refl)) as (H1 & H2 & H3). destruct ds as [|d ds].
  - cbn [map sections]. rewrite <- (app_nil_r (group rr br g l ts)), <- (app_nil_r (group rr fb g l ts)). apply group_brs; auto; [constructor|left; auto].
  - cbn [map] in *. rewrite (sections_cons (group rr br g l ts)), (sections_cons (group rr fb g l ts)) by discriminate. apply group_brs; auto; [|right; eexists; reflexivity]. apply brs_char; [discriminate|]. apply brs_char; [discriminate|]. apply IH. intros; apply H; right; auto.
Qed.
Lemma sections_last l : l <> [] -> (forall x, In x l -> exists v d, x = v ++ [d] /\ d <> 10) -> exists v d, sections l = v ++ [d] /\ d <> 10.
Proof.
  induction l as [|x l IH]; intros Hn H; [congruence|]. destruct l as [|y l]; [apply (H x); left; auto|].
  destruct IH as (v & d & E & Hd); [discriminate|intros; apply H; right; auto|]. rewrite sections_cons by discriminate. rewrite E. exists (x ++ 10 :: 10 :: v), d. rewrite <- app_assoc. auto.
Qed.
Lemma group_last x g l ts : (forall t, In t ts -> sig_text g t) -> ts <> [] -> exists v d, group rr x g l ts = v ++ [d] /\ d <> 10.
Proof.
  intros Ht Hn. unfold group.
  assert (forall a w, (exists v d, w = v ++ [d] /\ d <> 10) -> exists v d, a ++ w = v ++ [d] /\ d <> 10) as Q.
  { intros a w (v & d & -> & Hd). exists (a ++ v), d. rewrite app_assoc. auto. }
  assert (forall w, exists v d, w ++ [62] = v ++ [d] /\ d <> 10) as Q2 by (intros w; exists w, 62; split; [reflexivity|discriminate]).
  apply Q. destruct (is_empty (outer_close g)) eqn:Eo.
  - assert (outer_close g = []) as -> by (apply is_empty_nil; auto). rewrite app_nil_r. apply sections_last; [destruct ts; [congruence|discriminate]|].
    intros y Hy. apply in_map_iff in Hy. destruct Hy as (t & <- & Hy). specialize (Ht t Hy). unfold inner. apply Q. destruct g; try discriminate; cbn [inner_close inside].
    + apply Q. apply (Q2 (u "</p")). + apply Q. rewrite app_assoc. apply (Q2 (u "</" ++ heading_tag n)). + rewrite app_nil_r. apply firm_last. exact (proj1 Ht).
  - apply Q. destruct g; try discriminate; cbn [outer_close]; [apply (Q2 ([10] ++ u "</blockquote"))|apply (Q2 (u "</code></pre"))|apply (Q2 (u "</pre"))].
Qed.
Lemma finish_parts ps : t_sanitize T = None -> (forall p, In p ps -> fit T p) -> finish T (page_html rr br ps) = page_html rr fb ps.
Proof.
  intros Hs H. unfold finish. rewrite Hs, !page_pairs. change (pairs fb ps) with (pairs br ps). unfold replace_all, segs. erewrite brs_pattern; [|apply br_is|apply groups_brs; intros; eapply pairs_fit; eauto].
  apply sections_end. intros x Hx. apply in_map_iff in Hx. destruct Hx as (((g & l) & ts) & <- & Hx). destruct (pairs_fit br ps g l ts H Hx) as (_ & H2 & H3). apply group_last; auto.
Qed.

(** ** The source *)
Definition prefix_chars : str := style_chars ++ u ";[]{}()=-^~" ++ (if rr then [] else u "<>").
Lemma prefix_more t : in_chars (style_chars ++ u ";[]{}()=-^~") t = true -> in_chars prefix_chars t = true.
Proof. apply in_chars_more. unfold prefix_chars. destruct rr; vm_compute; reflexivity. Qed.
Lemma item_prefix x : spec rr x -> mark x = true \/ described x = true -> in_chars prefix_chars (item_text x) = true.
Proof.
  intros Hs [Hm|Hd].
  - destruct x as [ds k|w|c i|n|n|a|v| | | | ]; try discriminate; cbn [item_text].
    + apply in_chars_repeat, prefix_more. reflexivity.
    + apply in_chars_repeat, prefix_more. reflexivity.
    + destruct Hs as [_ Hs]. cbn [sig_item] in Hs. unfold prefix_chars. destruct rr eqn:Er; [rewrite (Hs eq_refl)|destruct a]; vm_compute; reflexivity.
    + apply prefix_more. destruct v; vm_compute; reflexivity.
  - rewrite described_text by auto. destruct (described_body rr x Hd Hs) as (_ & Hb & _).
    change (fst (brackets x) :: body x ++ [snd (brackets x)]) with ([fst (brackets x)] ++ body x ++ [snd (brackets x)]). apply prefix_more. rewrite !in_chars_app.
    rewrite (in_chars_more body_chars _ (body x)) by (try exact Hb; vm_compute; reflexivity). destruct x; try discriminate; reflexivity.
Qed.
Lemma prefix_ok g l : sig_ok T g l -> in_chars prefix_chars (sig_name g ++ items_text l) = true.
Proof.
  intros Hok. rewrite in_chars_app. apply andb_true_intro. split.
  - apply prefix_more. destruct Hok as [Hk _]. destruct g as [|k| | | |]; cbn [sig_name]; try (vm_compute; reflexivity).
    assert (k = 1 \/ k = 2 \/ k = 3 \/ k = 4 \/ k = 5 \/ k = 6) as D by lia. repeat (destruct D as [->|D]; [vm_compute; reflexivity|]). subst. vm_compute. reflexivity.
  - pose proof (sig_spec T g l Hok) as Hl. destruct Hok as (_ & _ & Hp & _). pose proof (fun x Hx => place_kinds l x Hp Hx) as Hm. clear Hp. unfold items_text. induction l as [|x l IH]; [reflexivity|]. cbn [flat_map]. rewrite in_chars_app, item_prefix by (try apply Hl; try apply Hm; left; auto).
    rewrite IH; auto; intros y Hy; [apply Hl|apply Hm]; right; exact Hy.
Qed.
Lemma prefix_without g l c : sig_ok T g l -> existsb (N.eqb c) prefix_chars = false -> ~ In c (sig_name g ++ items_text l).
Proof.
  intros H E F. pose proof (prefix_ok g l H) as Q. unfold in_chars in Q. rewrite forallb_forall in Q. rewrite (Q c F) in E. discriminate.
Qed.
Lemma prefix_uid g l : sig_ok T g l -> uid_free T (sig_name g ++ items_text l).
Proof.
  intros Hok. destruct Hok as (Hk & Hi & Hp & _ & Hu). apply token_free_iff in Hu.
  assert (uid_free T (sig_name g)) as N1.
  { apply uid_no_colon; auto. destruct g as [|k| | | |]; cbn [sig_name]; try (vm_compute; intuition discriminate). unfold heading_tag. intros [F|[F|[]]]; lia. }
  destruct l as [|x l]; [cbn; rewrite app_nil_r; exact N1|].
  destruct (item_first x (place_kinds _ _ Hp (or_introl eq_refl))) as (d & r & E & Hd).
  { destruct Hi as (_ & Hi & _). pose proof (Hi x (or_introl eq_refl)) as H. destruct x; auto. }
  change (items_text (x :: l)) with (item_text x ++ items_text l) in *. rewrite E in *. cbn [app] in *.
  assert (forallb (fun d => forallb (fun x => negb (x =? d)) uid_all) SIG_FIRST = true) as P by (vm_compute; reflexivity). rewrite forallb_forall in P.
  unfold uid_free. rewrite uid_cutting by (auto; apply P; exact Hd). rewrite N1. apply (contains_sub _ [d] (r ++ items_text l)) in Hu. apply Hu.
Qed.
Lemma prefix_first g l w : sig_ok T g l -> exists c r, sig_name g ++ items_text l ++ w = c :: r /\ is_ws c = false.
Proof. intros _. destruct g; eexists _, _; split; reflexivity. Qed.
Lemma start_firm ext g l t : sig_ok T g l -> (~ In 13 t /\ forall l, In l (lines t) -> blank_line l = false) -> firm (starting ext g l t).
Proof.
  intros Hg Ht. unfold starting. assert (sig_name g ++ items_text l ++ 46 :: dots ext ++ 32 :: t = ((sig_name g ++ items_text l) ++ 46 :: dots ext ++ [32]) ++ t) as -> by (rewrite <- !app_assoc; destruct ext; reflexivity).
  assert (forall c, existsb (N.eqb c) prefix_chars = false -> c <> 46 -> c <> 32 -> ~ In c ((sig_name g ++ items_text l) ++ 46 :: dots ext ++ [32])) as Q.
  { intros c H1 H2 H3 F. apply in_app_or in F. destruct F as [F|F]; [exact (prefix_without g l c Hg H1 F)|]. destruct F as [F|F]; [congruence|]. apply in_app_or in F. destruct F as [F|[F|[]]]; [|congruence]. destruct ext; [destruct F as [F|[]]; congruence|destruct F]. }
  apply firm_prefix; auto; [apply Q; [unfold prefix_chars; destruct rr; vm_compute; reflexivity|discriminate|discriminate]|apply Q; [unfold prefix_chars; destruct rr; vm_compute; reflexivity|discriminate|discriminate]|].
  rewrite blank_line_app. apply andb_false_iff. right. reflexivity.
Qed.
Lemma text_firm g t : sig_text g t -> firm t.
Proof. intros H. destruct g; cbn [sig_text] in H; try (apply para_firm; exact H); try exact H. exact (proj1 H). Qed.
Lemma comment_firm t : code_text t -> firm (u "###. " ++ t).
Proof. intros H. apply firm_prefix; [| | |exact H]; vm_compute; intuition discriminate. Qed.
Lemma pieces_firm p : fit T p -> forall x, In x (pieces p) -> firm x.
Proof.
  intros H x Hx. destruct p as [t|g l t|g l t more|t]; cbn [fit pieces] in *.
  - destruct Hx as [<-|[]]. apply para_firm; auto.
  - destruct Hx as [<-|[]]. apply (start_firm false); [tauto|]. apply (text_firm g); tauto.
  - destruct H as (H1 & Hcl & H2 & H3 & H4). destruct Hx as [<-|Hx]; [apply (start_firm true); auto; apply (text_firm g), H2; left; auto|]. apply (text_firm g), H2. right. auto.
  - destruct Hx as [<-|[]]. apply comment_firm. tauto.
Qed.
Lemma pieces_uid p : fit T p -> forall x, In x (pieces p) -> uid_free T x.
Proof.
  intros H x Hx.
  assert (forall ext g l t, sig_ok T g l -> uid_free T t -> uid_free T (starting ext g l t)) as Q.
  { intros ext g l t Hg Ht. unfold starting. assert (sig_name g ++ items_text l ++ 46 :: dots ext ++ 32 :: t = ((sig_name g ++ items_text l) ++ 46 :: dots ext) ++ 32 :: t) as -> by (rewrite <- !app_assoc; destruct ext; reflexivity).
    unfold uid_free. rewrite contains_cut by (try apply uid_ne; auto; apply uid_without; auto). rewrite Ht, orb_false_r. rewrite uid_cutting by (auto; vm_compute; reflexivity). rewrite (prefix_uid g l Hg). apply uid_no_colon; auto.
    destruct ext; [intros [F|[]]; discriminate|intros []]. }
  destruct p as [t|g l t|g l t more|t]; cbn [fit pieces] in *.
  - destruct Hx as [<-|[]]. apply para_uid; auto.
  - destruct Hx as [<-|[]]. apply (Q false); tauto.
  - destruct H as (H1 & Hcl & H2 & H3 & H4). destruct Hx as [<-|Hx]; [apply (Q true); auto; apply H2; left; auto|]. apply H2. right. auto.
  - destruct Hx as [<-|[]]. change (u "###. " ++ t) with (u "###." ++ 32 :: t). unfold uid_free. rewrite contains_cut by (try apply uid_ne; auto; apply uid_without; auto).
    destruct H as (_ & -> & _). rewrite orb_false_r. apply uid_no_colon; auto. vm_compute; intuition discriminate.
Qed.

(** ** Restricted mode *)
Lemma seen_esc t : t_restricted T = true -> seen_text T t = esc t.
Proof. intros H. unfold seen_text. rewrite H, esc_entities. reflexivity. Qed.
Lemma esc_prefix g l : t_restricted T = true -> sig_ok T g l -> esc (sig_name g ++ items_text l) = sig_name g ++ items_text l.
Proof. intros Hr H. apply esc_id; apply prefix_without; auto; unfold prefix_chars; rewrite Hr; vm_compute; reflexivity. Qed.
Lemma esc_starting ext g l t : t_restricted T = true -> sig_ok T g l -> esc (starting ext g l t) = starting ext g l (esc t).
Proof.
  intros Hr H. unfold starting. assert (forall w, sig_name g ++ items_text l ++ 46 :: dots ext ++ 32 :: w = (sig_name g ++ items_text l) ++ (46 :: dots ext ++ [32]) ++ w) as E by (intros w; rewrite <- !app_assoc; destruct ext; reflexivity).
  rewrite !E. rewrite (esc_app (sig_name g ++ items_text l)), (esc_app (46 :: dots ext ++ [32])), esc_prefix by auto. destruct ext; reflexivity.
Qed.
Lemma esc_seen g t : t_restricted T = true -> sig_text g t -> esc t = seen_in T g t.
Proof. intros Hr Ht. unfold seen_in. destruct (is_text g) eqn:Eg; [apply para_esc, (text_para g); auto|]. rewrite seen_esc; auto. Qed.
Lemma seen_id p : t_restricted T = false -> seen_part T p = p.
Proof.
  intros H. assert (forall t, seen_text T t = t) as Q by (intros t; unfold seen_text; rewrite H; reflexivity). assert (forall g t, seen_in T g t = t) as Q2 by (intros g t; unfold seen_in; destruct (is_text g); auto).
  destruct p as [t|g l t|g l t more|t]; cbn [seen_part]; rewrite ?Q, ?Q2; auto. f_equal. rewrite (map_ext _ (fun x => x)) by (intros; apply Q2). apply map_id.
Qed.
Lemma pieces_seen p : part_ok T p -> t_restricted T = true -> map esc (pieces p) = pieces (seen_part T p).
Proof.
  intros H Hr. destruct p as [t|g l t|g l t more|t]; cbn [part_ok pieces seen_part map] in *.
  - rewrite para_esc; auto.
  - f_equal. destruct H as (H1 & _ & H2 & _). change (sig_name g ++ items_text l ++ u ". " ++ ?t) with (starting false g l t). rewrite esc_starting, (esc_seen g) by auto. reflexivity.
  - destruct H as (H1 & _ & H2 & _). change (sig_name g ++ items_text l ++ u ".. " ++ ?t) with (starting true g l t). rewrite esc_starting by auto. rewrite (esc_seen g t) by (auto; apply H2; left; auto). f_equal.
    apply map_ext_in. intros x Hx. apply esc_seen; auto. apply H2. right. auto.
  - rewrite esc_app, seen_esc by auto. reflexivity.
Qed.
Lemma seen_code t : code_text t -> code_text (seen_text T t).
Proof. unfold seen_text. destruct (t_restricted T); auto. rewrite <- esc_entities. apply code_esc. Qed.
Lemma seen_sig g t : sig_text g t -> sig_text g (seen_in T g t).
Proof.
  intros H. unfold seen_in. destruct g; cbn [is_text sig_text] in *; auto using seen_code. destruct H as [H1 H2]. split; [apply seen_code; auto|].
  unfold seen_text. destruct (t_restricted T); auto. rewrite <- esc_entities. apply no_lt_no_br, esc_60.
Qed.
Lemma seen_free t : token_free T t -> uid_free T (seen_text T t).
Proof. intros H. apply token_free_iff in H. unfold seen_text, uid_free. destruct (t_restricted T); auto. apply uid_entities; auto. Qed.
Lemma seen_in_free g t : token_free T t -> uid_free T (seen_in T g t).
Proof. intros H. unfold seen_in. destruct (is_text g); [apply token_free_iff; auto|apply seen_free; auto]. Qed.
Lemma seen_visible t : (exists c, In c t /\ is_ws c = false) -> exists c, In c (seen_text T t) /\ is_ws c = false.
Proof.
  intros (c & Hc & Hw). unfold seen_text. destruct (t_restricted T); [|eauto]. rewrite <- esc_entities. unfold esc, encode_html.
  assert (encode_char false false c = [c] \/ exists w, encode_char false false c = 38 :: w) as [E|(w & E)].
  { unfold encode_char. cbn [andb]. repeat match goal with |- context [if ?x then _ else _] => destruct x end; [right|right|right|left; reflexivity]; eexists; reflexivity. }
  - exists c. split; auto. apply in_flat_map. exists c. split; auto. rewrite E. left. auto.
  - exists 38. split; [|reflexivity]. apply in_flat_map. exists c. split; auto. rewrite E. left. auto.
Qed.
Lemma seen_closed l g t : closed l t -> closed l (seen_in T g t).
Proof.
  intros [H|H]; [left; exact H|right]. intros F. apply H. unfold seen_in, seen_text in F. destruct (is_text g); [exact F|]. destruct (t_restricted T); [|exact F].
  rewrite <- esc_entities in F. unfold esc, encode_html in F. apply in_flat_map in F as (c & Hc & F).
  assert (c = 41) as ->; [|exact Hc]. unfold encode_char in F. cbn [andb] in F.
  repeat match type of F with context [if ?x then _ else _] => destruct x end; first [destruct F as [F|[]]; exact F|vm_compute in F; intuition discriminate].
Qed.
Lemma seen_fit p : part_ok T p -> fit T (seen_part T p).
Proof.
  intros H. destruct p as [t|g l t|g l t more|t]; cbn [part_ok seen_part fit] in *; auto.
  - destruct H as (H1 & Hcl & H2 & H3 & H4). repeat split; auto using seen_sig, seen_in_free, seen_closed; apply H1.
  - destruct H as (H1 & Hcl & H2 & H3 & H4). split; auto. split; [apply seen_closed; auto|]. split; [|split; auto].
    + intros x Hx. change (seen_in T g t :: map (seen_in T g) more) with (map (seen_in T g) (t :: more)) in Hx. apply in_map_iff in Hx. destruct Hx as (y & <- & Hy). destruct (H2 y Hy). auto using seen_sig, seen_in_free.
    + intros x Hx. apply in_map_iff in Hx. destruct Hx as (y & <- & Hy). intros Eg. destruct (H3 y Hy Eg) as [G1 G2]. unfold seen_in. rewrite Eg. split; auto using seen_visible.
  - destruct H as (H1 & H2 & H3). auto using seen_code, seen_free.
Qed.
Lemma prepare_parts ps : (forall p, In p ps -> part_ok T p) -> prepare T (written ps) = written (map (seen_part T) ps).
Proof.
  intros H. unfold prepare, written.
  assert (forall x, In x (flat_map pieces (map (seen_part T) ps)) -> firm x /\ uid_free T x) as F.
  { intros x Hx. apply in_flat_map in Hx. destruct Hx as (p & Hp & Hx). apply in_map_iff in Hp. destruct Hp as (q & <- & Hq). pose proof (seen_fit q (H q Hq)). split; [eapply pieces_firm|eapply pieces_uid]; eauto. }
  assert (normalize_newlines (if t_restricted T then encode_html (sections (flat_map pieces ps)) false false else sections (flat_map pieces ps)) = sections (flat_map pieces (map (seen_part T) ps))) as ->.
  { replace (if t_restricted T then encode_html (sections (flat_map pieces ps)) false false else sections (flat_map pieces ps)) with (sections (flat_map pieces (map (seen_part T) ps))).
    - rewrite normalize_tidy. apply tidy_sections. intros s Hs. apply F. exact Hs.
    - destruct (t_restricted T) eqn:Er.
      + fold (esc (sections (flat_map pieces ps))). rewrite esc_sections. f_equal. clear F. induction ps as [|p ps IH]; [reflexivity|]. cbn [map flat_map]. rewrite map_app, IH by (intros; apply H; right; auto). f_equal. symmetry. apply pieces_seen; auto. apply H. left. auto.
      + f_equal. rewrite (map_ext _ (fun p => p)) by (intros; apply seen_id; auto). rewrite map_id. reflexivity. }
  apply replace_absent; [apply uid_ne; auto|]. apply sections_uid; auto. intros x Hx. apply F. exact Hx.
Qed.

(** ** The document *)
Lemma piece_first p : part_ok T p -> exists c r l, pieces p = (c :: r) :: l /\ is_ws c = false.
Proof.
  intros H. destruct p as [t|g l t|g l t more|t]; cbn [part_ok pieces] in *.
  - destruct (para_first t H) as (x & r & -> & Hx). eauto.
  - destruct (prefix_first g l (u ". " ++ t) (proj1 H)) as (c & r & -> & Hc). eauto.
  - destruct (prefix_first g l (u ".. " ++ t) (proj1 H)) as (c & r & -> & Hc). eauto.
  - eexists _, _, _. split; reflexivity.
Qed.
Lemma seen_separate ps : separate ps -> separate (map (seen_part T) ps).
Proof.
  induction ps as [|p ps IH]; intros H; [exact I|]. destruct ps as [|q ps]; [destruct p; exact I|]. 
  destruct p, q; try exact (IH H); destruct H.
Qed.
Lemma parse_parts fuel c ps : (1 < fuel)%nat -> @cache_ok (own T) c -> t_sanitize T = None -> t_block_tags T = true -> (forall p, In p ps -> part_ok T p) -> separate ps ->
  exists s, parse W T fuel c (written ps) = Ret (page_html rr fb (map (seen_part T) ps)) s.
Proof.
  intros Hf Hc Hs Ht Hb Hsep. unfold parse. destruct ps as [|p0 ps0] eqn:Eps.
  { exists (new_state c). reflexivity. }
  rewrite <- Eps in *. assert (map (seen_part T) ps <> []) as Hne by (rewrite Eps; discriminate).
  unfold parse_m. assert (is_empty (trim (written ps)) = false) as ->.
  { destruct (piece_first p0) as (x & r & l & E & Hx); [apply Hb; rewrite Eps; left; auto|]. unfold written. eapply trim_sections; [|exact Hx]. rewrite Eps. cbn [flat_map]. rewrite E. reflexivity. }
  rewrite prepare_parts, Ht by auto. assert (forall p, In p (map (seen_part T) ps) -> fit T p) as Hb'.
  { intros p Hp. apply in_map_iff in Hp. destruct Hp as (q & <- & Hq). apply seen_fit; auto. }
  apply seen_separate in Hsep. set (ds := map (seen_part T) ps) in *. clearbody ds. clear Eps Hb.
  destruct fuel as [|n]; [lia|].
  destruct (parts_fold W T uid_simple (S n) n ltac:(lia) ds (mk_bl [] [] false [] [] [] None [] false) (new_state c)) as (a & c1 & Hc1 & E1 & G1 & O1); auto.
  { intros F. destruct F. reflexivity. } { destruct ds as [|[] ?]; cbn [follows]; auto. }
  assert (block W T (graf W T (S n)) (written ds) (new_state c) = Ret (sections (staged_parts T 0 ds)) (puts T (flat_map stored_of ds) (set_cache c1 (new_state c)))) as E2.
  { unfold block. unfold splitM, written. rewrite split_sections.
    - cbn [of_opt]. rewrite bind_ret. unfold graf. unfold bind. rewrite E1. unfold ret. f_equal. pose proof (closed_total a G1) as Q. rewrite O1 in Q. cbn [bl_ws ps_ref_index new_state total bl_out bl_ext rev List.concat app is_empty] in Q. etransitivity; [exact Q|].
      unfold total. cbn [bl_out bl_ext rev List.concat app is_empty]. destruct (staged_parts T 0 ds); reflexivity.
    - destruct ds as [|d ds]; [congruence|]. cbn [flat_map]. destruct (pieces_some d) as (x & l & ->). discriminate.
    - intros x Hx. apply in_flat_map in Hx. destruct Hx as (p & Hp & Hx). eapply pieces_firm; eauto. }
  destruct (puts_own T (flat_map stored_of ds) (new_state c)) as (P1 & P2 & P3 & P4). rewrite P4 in E2. set (s1 := set_cache c1 (puts T (flat_map stored_of ds) (new_state c))) in *.
  assert (place_note_lists T (sections (staged_parts T 0 ds)) s1 = Ret (sections (staged_parts T 0 ds)) s1) as E3.
  { unfold place_note_lists, modify, bind. cbn beta. assert (ps_notes s1 = []) as -> by (unfold s1; cbn [ps_notes set_cache]; rewrite P3; reflexivity). cbv iota.
    apply no_match_replaceM. apply parts_notelist; auto. }
  assert (ps_shelf s1 = numbered T 0 (flat_map stored_of ds)) as E4 by (unfold s1; cbn [ps_shelf set_cache]; rewrite puts_shelf; [reflexivity|intros k []]).
  assert (ps_borrowed s1 = false) as E5 by (unfold s1; cbn [ps_borrowed set_cache]; rewrite P2; reflexivity).
  destruct (restore_parts T uid_simple (S n) ds s1 Hf Hb' E4) as [E9 E6].
  destruct (tags_absent T uid_simple _ E6 s1 Hc1 E5) as (c2 & Hc2 & E7). destruct (urls_absent W T uid_simple _ E6 (set_cache c2 s1) Hc2 E5) as (c3 & Hc3 & E8).
  exists (set_cache c3 (set_cache c2 s1)).
  unfold bind at 1. unfold bind at 1. rewrite E2, E3. unfold bind at 1. rewrite E9.
  rewrite replace_absent; [|pose proof (uid_ne _ uid_simple); destruct (t_uid T); [congruence|discriminate]|apply contains_more; exact E6].
  unfold bind at 1. rewrite E7. unfold bind at 1. rewrite E8. unfold ret. rewrite finish_parts; auto.
Qed.
End Top.
Lemma signed_documents W T fuel ps : ready T -> (1 < fuel)%nat -> (forall p, In p ps -> part_ok T p) -> separate ps ->
  exists s, parse W T fuel [] (written ps) = Ret (page_html (t_restricted T) (line_break T) (map (seen_part T) ps)) s.
Proof. intros (Hu & Ht & Hs) Hf Hb Hsep. rewrite <- final_break. apply parse_parts; auto. apply cache_ok_nil. Qed.
Lemma shown_html r x T ps : page_html r x (map (seen_part T) (filter shown_part ps)) = page_html r x (map (seen_part T) ps).
Proof. unfold page_html. f_equal. induction ps as [|p ps IH]; [reflexivity|]. destruct p; cbn [filter shown_part map seen_part flat_map part_html]; rewrite IH; reflexivity. Qed.
Lemma comments_unseen W T fuel ps : ready T -> (1 < fuel)%nat -> (forall p, In p ps -> part_ok T p) -> separate ps -> separate (filter shown_part ps) ->
  exists html s s', parse W T fuel [] (written ps) = Ret html s /\ parse W T fuel [] (written (filter shown_part ps)) = Ret html s'.
Proof.
  intros Hr Hf Hp H1 H2. destruct (signed_documents W T fuel ps Hr Hf Hp H1) as (s & E).
  destruct (signed_documents W T fuel (filter shown_part ps) Hr Hf) as (s' & E'); auto.
  { intros p Hi. apply filter_In in Hi. apply Hp, Hi. }
  exists (page_html (t_restricted T) (line_break T) (map (seen_part T) ps)), s, s'. rewrite E, E', shown_html. auto.
Qed.
(** ** The family, decidably *)
Lemma plain_ready : ready T0.
Proof. split; [|split; reflexivity]. exists (u "abc"). split; [reflexivity|]. intros c [<-|[<-|[<-|[]]]]; vm_compute; tauto. Qed.
Lemma short_free T t : simple_uid (t_uid T) -> (List.length t < 12)%nat -> token_free T t.
Proof. intros H L a b E. apply uid_long in H. rewrite E, !app_length in L. lia. Qed.
Lemma code_dec t : existsb (N.eqb 13) t = false -> forallb (fun l => negb (SpecNewlines.blank_line l)) (SpecNewlines.lines t) = true -> code_text t.
Proof.
  intros H1 H2. split.
  - intros H. assert (existsb (N.eqb 13) t = true) by (apply existsb_exists; exists 13; auto). congruence.
  - intros l Hl. rewrite forallb_forall in H2. apply negb_true_iff, H2, Hl.
Qed.
Lemma unsigned_star r : unsigned (42 :: r).
Proof.
  split; [intros r' E; discriminate|]. intros name c r' Hn _ E.
  repeat match type of Hn with _ \/ _ => destruct Hn as [<-|Hn]; [discriminate|] | In _ _ => cbn [In] in Hn end. destruct Hn.
Qed.
