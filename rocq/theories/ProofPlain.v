(** Text on which the inline phase has no effect. *)
From Coq Require Import ZArith.
From Verif Require Import Str Unicode Regex RegexParse RegexSnips RegexTheory RegexAuto RegexGroups Lib ModelBase ModelHtml ModelUrl
  ModelAttrs ModelInline ModelParser SpecRegex ProofRegex SpecParse ProofParse Logic ProofWalk ProofState ProofMemory ProofCache ProofLinks ProofDoc.
#[local] Arguments u : simpl never.

(** [leaves T m x]: [m] gives [x] and changes nothing but the pattern cache. *)
Definition leaves {A} (T : textile) (m : M A) (x : A) : Prop :=
  forall s, @cache_ok (own T) (ps_cache s) -> ps_borrowed s = false ->
  exists c, @cache_ok (own T) c /\ m s = Ret x (set_cache c s).
Lemma set_cache_id s : set_cache (ps_cache s) s = s.
Proof. destruct s; reflexivity. Qed.
Lemma leaves_pure {A} T (m : M A) x : (forall s, m s = Ret x s) -> leaves T m x.
Proof. intros H s H1 H2. exists (ps_cache s). rewrite set_cache_id. auto. Qed.
Lemma leaves_ret {A} T (x : A) : leaves T (ret x) x.
Proof. apply leaves_pure. reflexivity. Qed.
Lemma leaves_bind {A B} T (m : M A) (k : A -> M B) x y : leaves T m x -> leaves T (k x) y -> leaves T (bind m k) y.
Proof.
  intros H1 H2 s Hc Hb. destruct (H1 s Hc Hb) as (c & Hc' & E). destruct (H2 (set_cache c s)) as (c2 & Hc2 & E2); auto.
  exists c2. split; [auto|]. unfold bind. rewrite E. rewrite E2. reflexivity.
Qed.
Lemma leaves_ext {A} T (m m' : M A) x : (forall s, m s = m' s) -> leaves T m' x -> leaves T m x.
Proof. intros H H1 s Hc Hb. destruct (H1 s Hc Hb) as (c & Hc' & E). exists c. rewrite H. auto. Qed.
Lemma leaves_if {A} T (b : bool) (m m' : M A) x : (b = true -> leaves T m x) -> (b = false -> leaves T m' x) -> leaves T (if b then m else m') x.
Proof. destruct b; auto. Qed.
Lemma leaves_replace T r f text : no_match r text -> leaves T (replace_allM r f text) text.
Proof. intros H. apply leaves_pure. intros s. apply no_match_replaceM; auto. Qed.
(** A pattern from the cache, used while it is borrowed. *)
Lemma leaves_cached {A} T line tag r (body : rx -> M A) x : expected (t_uid T) line tag = Some r ->
  (forall s, body r s = Ret x s) ->
  leaves T (bind acquire (fun _ => bind (cached line tag (Some r)) (fun p => bind (body p) (fun a => bind release (fun _ => ret a))))) x.
Proof.
  intros He Hb s Hc Hn. unfold acquire, bind, get. rewrite Hn. unfold put.
  destruct (cached_hit T line tag r (set_borrowed true s) Hc He) as (c' & E & Hc'). rewrite E, Hb. unfold release, modify, ret.
  exists c'. split; [exact Hc'|]. f_equal. destruct s; cbn in *. subst. reflexivity.
Qed.

(** ** Patterns of the inline phase *)
Definition INLINE_RX : list rx :=
  [SPECIAL_NOTEXTILE; SPECIAL_EQ; SPECIAL_CODE; SPECIAL_AT; SPECIAL_PRE; SPECIAL_COMMENT; RESTRICTED_URLREF_RE; UNRESTRICTED_URLREF_RE;
   QUOTED_QUOTE_RE; SLICE_RE; IMAGE_RE; TABLE_RE; RC_PATTERN; LIST_RE; FOOTNOTE_RE; NOTEREF_RE].
Definition GLYPH_RX : list rx :=
  [GLYPH_SPLITTER_RE; LONE_AMP_RE; GL_DIM; GL_APOS; GL_BACKIN; GL_SOPENB; GL_SCLOSE; GL_SOPEN; GL_DOPENB; GL_DCLOSE; GL_DOPEN;
   GL_ELLIPSIS; GL_AMP; GL_EMDASH; GL_ENDASH; GL_TM; GL_REG; GL_COPY; GL_HALF; GL_QUARTER;
   GL_3QUARTER; GL_DEGREE; GL_PLUSMINUS; GL_ACRONYM; DYN_3PLUS_RE].
Record inert (T : textile) (t : str) : Prop := mk_inert {
  in_inline : forall r, In r INLINE_RX \/ In r TAG_PATTERNS -> no_match (rx_re r) t /\ no_match (rx_re r) (t ++ nl ++ nl);
  in_glyph : forall r, In r GLYPH_RX -> no_match (rx_re r) t;
  in_angle : ~ In 60 t /\ ~ In 62 t;
  in_needle : contains (needle (t_uid T)) t = false;
  in_end : trim_end_matches 10 t = t }.

Section Inert.
Variables (W : world) (T : textile).
Hypothesis uid_ok : uid_plain (t_uid T) = true.

Lemma trim_end_snoc t : trim_end_matches 10 (t ++ nl ++ nl) = trim_end_matches 10 t.
Proof. unfold trim_end_matches, trim_end_by. rewrite !rev_app_distr. reflexivity. Qed.
Lemma split_no_match r text : no_match (rx_re r) text -> split_rx r text = Some [text].
Proof.
  intros H. unfold split_rx. rewrite (segs_no_match _ _ H). rewrite <- (app_nil_r (map Lit text)), split_go_lits. cbn [split_go].
  rewrite app_nil_r, rev_involutive. reflexivity.
Qed.
Lemma replace_char_none c to t : ~ In c t -> replace_char t c to = t.
Proof.
  unfold replace_char. induction t as [|x t IH]; intros H; [reflexivity|]. cbn [flat_map].
  destruct (N.eqb_spec x c) as [->|]; [destruct H; left; auto|]. cbn [app]. rewrite IH; auto. intros F. apply H. right. auto.
Qed.
Lemma multi_none l t : (forall c, In c l -> no_match (rx_re (fst c)) t) -> multi_replace t l = t.
Proof.
  unfold multi_replace. induction l as [|c l IH]; intros H; [reflexivity|]. cbn [fold_left].
  rewrite replace_tmpl_no_match by (apply H; left; auto). apply IH. intros c' Hc. apply H. right. auto.
Qed.
Lemma replacers_in c : In c (all_replacers T) -> In (fst c) GLYPH_RX.
Proof.
  unfold all_replacers. intros H. apply in_app_or in H. destruct H as [H|[<-|[]]].
  2:{ cbn [fst]. unfold GLYPH_RX. do 24 right. left. reflexivity. }
  assert (map fst (match t_html T with HTML5 => HTML5_GLYPH_REPLACERS | XHTML => XHTML_GLYPH_REPLACERS end) = firstn 22 (skipn 2 GLYPH_RX)) as E
    by (destruct (t_html T); reflexivity).
  apply (in_map fst) in H. rewrite E in H. apply (in_or_app (firstn 2 GLYPH_RX) (skipn 2 GLYPH_RX)). right.
  rewrite <- (firstn_skipn 22 (skipn 2 GLYPH_RX)). apply in_or_app. left. exact H.
Qed.
Lemma chunk_inert t : (forall r, In r GLYPH_RX -> no_match (rx_re r) t) -> ~ In 60 t -> ~ In 62 t -> glyph_chunk T t = t.
Proof.
  intros H H1 H2. unfold glyph_chunk.
  assert (replace_char (replace_char (replace_all (rx_re LONE_AMP_RE) (fun _ => u "&amp;") t) 60 (u "&lt;")) 62 (u "&gt;") = t) as E.
  { rewrite replace_all_no_match by (apply H; right; left; reflexivity). rewrite (replace_char_none 60) by auto. apply replace_char_none; auto. }
  rewrite E. destruct (t_restricted T); apply multi_none; intros c Hc; apply H, replacers_in; auto.
Qed.
Lemma glyphs_inert t : inert T t -> forall s, glyphs T t s = Ret t s.
Proof.
  intros [H1 H2 [H3 H3'] H4 H5] s. unfold glyphs. rewrite H5. unfold splitM, bind. rewrite split_no_match by (apply H2; left; reflexivity).
  cbn [of_opt ret glyph_chunks List.concat]. rewrite chunk_inert by auto. unfold ret. rewrite app_nil_r. reflexivity.
Qed.
Lemma span_inert t : (forall r, In r TAG_PATTERNS -> no_match (rx_re r) t) -> forall s, span T t s = Ret t s.
Proof.
  intros H s. unfold span. cbn [span_n]. unfold modify, get, bind, ret.
  assert (forall f l s, (forall r, In r l -> no_match (rx_re r) t) -> multi_replace_with_one t l f s = Ret t s) as P.
  { intros f l. unfold multi_replace_with_one. induction l as [|r l IH]; intros s1 Hl; [reflexivity|]. cbn [foldM]. unfold bind.
    rewrite no_match_replaceM by (apply Hl; left; auto). apply IH. intros r' Hr. apply Hl. right. auto. }
  rewrite if_app. destruct (_ <=? _); [rewrite P by exact H|]; f_equal; destruct s; unfold set_span_depth; cbn; f_equal; lia.
Qed.
Lemma links_inert fuel t : (0 < fuel)%nat -> no_match (rx_re SLICE_RE) t -> contains (needle (t_uid T)) t = false -> leaves T (links W T fuel t) t.
Proof.
  intros Hf H1 H2. unfold links. eapply leaves_bind.
  - unfold mark_start_of_links, splitM. rewrite split_no_match by auto. apply leaves_pure. reflexivity.
  - unfold replace_links. destruct (link_re (t_uid T)) as [r|] eqn:E.
    2:{ unfold link_re in E. rewrite uid_ok in E. discriminate. }
    apply leaves_cached; [exact E|]. intros s. destruct fuel as [|n]; [lia|]. cbn [link_loop]. rewrite H2. reflexivity.
Qed.
Lemma graf_inert fuel n t : (0 < fuel)%nat -> inert T t -> leaves T (graf_n W T fuel (S n) t) t.
Proof.
  intros Hf Hi. pose proof Hi as [H1 H2 H3 H4 H5]. cbn [graf_n]. unfold graf_body.
  assert (forall r, In r INLINE_RX -> no_match (rx_re r) t) as L by (intros r Hr; apply H1; auto).
  assert (forall r, In r INLINE_RX -> no_match (rx_re r) (t ++ nl ++ nl)) as L2 by (intros r Hr; apply H1; auto).
  assert (exists t2, (t2 = t \/ t2 = t ++ nl ++ nl) /\ t2 = (if t_lite T then t else t ++ nl ++ nl)) as (t2 & Ht2 & E2) by (destruct (t_lite T); eauto).
  assert (forall r, In r INLINE_RX \/ In r TAG_PATTERNS -> no_match (rx_re r) t2) as L3.
  { intros r Hr. destruct Ht2 as [-> | ->]; apply H1; auto. }
  assert (trim_end_matches 10 t2 = t) as E3 by (destruct Ht2 as [-> | ->]; rewrite ?trim_end_snoc; auto).
  eapply leaves_bind with (x := t). { apply leaves_if; intros _; [apply leaves_ret|]. unfold no_textile. eapply leaves_bind; apply leaves_replace, L; cbn; tauto. }
  eapply leaves_bind with (x := t). { apply leaves_if; intros _; [apply leaves_ret|]. unfold code. eapply leaves_bind; [apply leaves_replace, L; cbn; tauto|]. eapply leaves_bind; apply leaves_replace, L; cbn; tauto. }
  eapply leaves_bind with (x := t). { apply leaves_replace, L. cbn; tauto. }
  eapply leaves_bind with (x := t). { unfold get_refs. destruct (t_restricted T); apply leaves_replace, L; cbn; tauto. }
  eapply leaves_bind with (x := t). { apply leaves_replace, L. cbn; tauto. }
  eapply leaves_bind with (x := t). { apply links_inert; auto. apply L. cbn; tauto. }
  eapply leaves_bind with (x := t). { apply leaves_if; intros _; [apply leaves_ret|]. apply leaves_replace, L. cbn; tauto. }
  eapply leaves_bind with (x := t2).
  { rewrite E2. destruct (t_lite T); [apply leaves_ret|]. unfold table. rewrite captures_no_match by (apply L2; cbn; tauto). apply leaves_ret. }
  eapply leaves_bind with (x := t2). { apply leaves_if; intros _; [apply leaves_ret|]. apply leaves_replace, L3. left. cbn; tauto. }
  eapply leaves_bind with (x := t2). { apply leaves_if; intros _; [apply leaves_ret|]. apply leaves_replace, L3. left. cbn; tauto. }
  eapply leaves_bind with (x := t2). { apply leaves_pure. apply span_inert. intros r Hr. apply L3. auto. }
  eapply leaves_bind with (x := t2). { apply leaves_replace, L3. left. cbn; tauto. }
  eapply leaves_bind with (x := t2). { apply leaves_replace, L3. left. cbn; tauto. }
  eapply leaves_bind with (x := t).
  { apply leaves_pure. intros s. unfold glyphs. rewrite E3. pose proof (glyphs_inert t Hi s) as G. unfold glyphs in G. rewrite H5 in G. exact G. }
  rewrite H5. apply leaves_ret.
Qed.
End Inert.
