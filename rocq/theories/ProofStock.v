(** Fragments on the shelf that contain URLs: both kinds of tokens are replaced at the end. *)
From Verif Require Import Str Unicode Regex RegexParse RegexSnips RegexTheory RegexAuto RegexGroups Lib ModelBase ModelHtml ModelUrl
  ModelAttrs ModelInline ModelParser SpecRegex ProofRegex ProofCharref SpecParse ProofParse Logic ProofWalk ProofState SpecState ProofMemory ProofCache ProofLinks ProofDoc
  SpecPlain ProofPlain SpecNewlines ProofNewlines ProofParas ProofTags ProofSections ProofBlocks ProofStateEx SpecDoc ProofDocument SpecText ProofText ProofWeave ProofSpan ProofSpanRe ProofSpanText SpecSpans ProofSpanDoc ProofSpanPage
  SpecSigned ProofSigned ProofSignedDoc ProofSignedPage ProofSignedEnd ProofSignedTop ProofPages.
#[local] Arguments u : simpl never.

(** ** What is stored *)
Inductive entry := Kept (x : str) | Address (x : str).
Section Stock.
Variable T : textile.
Notation tok n := (fragment_token T n).
Definition stock (e : entry) (s : pstate) : pstate :=
  let i := ps_ref_index s + 1 in
  match e with
  | Kept x => set_shelf (im_insert (tok i) x (ps_shelf s)) (set_ref_index i s)
  | Address x => set_ref_cache (nm_insert i x (ps_ref_cache s)) (set_ref_index i s)
  end.
Definition stocks (es : list entry) (s : pstate) : pstate := fold_left (fun s e => stock e s) es s.
Definition many (es : list entry) : N := N.of_nat (List.length es).
Fixpoint shelf_at (n : N) (es : list entry) : list (str * str) :=
  match es with [] => [] | Kept x :: r => (tok (n + 1), x) :: shelf_at (n + 1) r | _ :: r => shelf_at (n + 1) r end.
Fixpoint urls_at (n : N) (es : list entry) : list (N * str) :=
  match es with [] => [] | Address x :: r => (n + 1, x) :: urls_at (n + 1) r | _ :: r => urls_at (n + 1) r end.
Lemma stocks_app es es' s : stocks (es ++ es') s = stocks es' (stocks es s).
Proof. apply fold_left_app. Qed.
Lemma many_app es es' : many (es ++ es') = many es + many es'.
Proof. unfold many. rewrite app_length. lia. Qed.
Lemma stocks_own es : forall s, ps_cache (stocks es s) = ps_cache s /\ ps_borrowed (stocks es s) = ps_borrowed s /\ ps_notes (stocks es s) = ps_notes s /\ ps_urlrefs (stocks es s) = ps_urlrefs s /\
  ps_ref_index (stocks es s) = ps_ref_index s + many es /\ forall c, stocks es (set_cache c s) = set_cache c (stocks es s).
Proof.
  induction es as [|e es IH]; intros s; [repeat split; unfold many; cbn; try reflexivity; lia|]. unfold stocks in *. cbn [fold_left]. destruct (IH (stock e s)) as (E1 & E2 & E3 & E4 & E5 & E6). rewrite E1, E2, E3, E4, E5.
  assert (ps_ref_index (stock e s) = ps_ref_index s + 1) as E by (destruct e; reflexivity). repeat split; try (destruct e; reflexivity).
  - rewrite E. unfold many. cbn [List.length]. lia.
  - intros c. rewrite <- E6. f_equal. destruct e; reflexivity.
Qed.
Lemma shelf_app es es' : forall n, shelf_at n (es ++ es') = shelf_at n es ++ shelf_at (n + many es) es'.
Proof.
  induction es as [|e es IH]; intros n; [cbn [app shelf_at]; unfold many; cbn [List.length]; f_equal; lia|]. replace (n + many (e :: es)) with (n + 1 + many es) by (unfold many; cbn [List.length]; lia). destruct e; cbn [app shelf_at]; rewrite IH; reflexivity.
Qed.
Lemma urls_app es es' : forall n, urls_at n (es ++ es') = urls_at n es ++ urls_at (n + many es) es'.
Proof.
  induction es as [|e es IH]; intros n; [cbn [app urls_at]; unfold many; cbn [List.length]; f_equal; lia|]. replace (n + many (e :: es)) with (n + 1 + many es) by (unfold many; cbn [List.length]; lia). destruct e; cbn [app urls_at]; rewrite IH; reflexivity.
Qed.
Lemma urls_key es : forall n i h, In (i, h) (urls_at n es) -> n < i <= n + many es.
Proof.
  induction es as [|e es IH]; intros n i h H; [destruct H|]. assert (many (e :: es) = 1 + many es) as -> by (unfold many; cbn [List.length]; lia).
  destruct e; cbn [urls_at] in H; [|destruct H as [E|H]; [injection E as <- _; lia|]]; apply IH in H; lia.
Qed.
Lemma urls_found es : forall n i h, In (i, h) (urls_at n es) -> assocN i (urls_at n es) = Some h.
Proof.
  induction es as [|e es IH]; intros n i h H; [destruct H|]. destruct e; cbn [urls_at] in *; [apply IH; exact H|]. cbn [assocN]. destruct H as [E|H].
  - injection E as <- <-. rewrite N.eqb_refl. reflexivity.
  - pose proof (urls_key es _ _ _ H). destruct (N.eqb_spec (n + 1) i); [lia|]. apply IH. exact H.
Qed.
Lemma shelf_key es : forall n k, In k (map fst (shelf_at n es)) -> exists i, k = tok i /\ n < i.
Proof.
  induction es as [|e es IH]; intros n k H; [destruct H|]. destruct e; cbn [shelf_at map fst] in H.
  - destruct H as [<-|H]; [exists (n + 1); split; [reflexivity|lia]|]. apply IH in H as (i & -> & Hi). exists i. split; [reflexivity|lia].
  - apply IH in H as (i & -> & Hi). exists i. split; [reflexivity|lia].
Qed.
Lemma shelf_nodup es : forall n, NoDup (map fst (shelf_at n es)).
Proof.
  induction es as [|e es IH]; intros n; [constructor|]. destruct e; cbn [shelf_at map fst]; [|apply IH]. constructor; [|apply IH]. intros F. apply shelf_key in F as (i & F & Hi). apply fragment_token_inj in F. lia.
Qed.
Lemma im_fresh {A} k (v : A) l : ~ In k (map fst l) -> im_insert k v l = l ++ [(k, v)].
Proof.
  induction l as [|[k' v'] l IH]; intros H; [reflexivity|]. cbn [im_insert app map fst] in *. destruct (seqb k' k) eqn:E; [apply seqb_eq in E; subst; destruct H; left; reflexivity|]. rewrite IH; [reflexivity|]. intros F. apply H. right. exact F.
Qed.
Lemma nm_fresh {A} k (v : A) l : (forall i h, In (i, h) l -> i < k) -> nm_insert k v l = l ++ [(k, v)].
Proof.
  induction l as [|[k' v'] l IH]; intros H; [reflexivity|]. cbn [nm_insert app]. specialize (H k' v' (or_introl eq_refl)) as H'. destruct (N.eqb_spec k' k); [lia|]. rewrite IH; [reflexivity|]. intros i h F. apply (H i h). right. exact F.
Qed.
Lemma stocks_from es : forall s, (forall k, In k (map fst (ps_shelf s)) -> exists i, k = tok i /\ i <= ps_ref_index s) -> (forall i h, In (i, h) (ps_ref_cache s) -> i <= ps_ref_index s) ->
  ps_shelf (stocks es s) = ps_shelf s ++ shelf_at (ps_ref_index s) es /\ ps_ref_cache (stocks es s) = ps_ref_cache s ++ urls_at (ps_ref_index s) es.
Proof.
  induction es as [|e es IH]; intros s H1 H2; [rewrite !app_nil_r; split; reflexivity|]. unfold stocks in *. cbn [fold_left]. destruct e as [x|x].
  - set (s' := stock (Kept x) s). assert (ps_shelf s' = ps_shelf s ++ [(tok (ps_ref_index s + 1), x)]) as E1.
    { unfold s', stock. cbn [ps_shelf set_shelf]. apply im_fresh. intros F. apply H1 in F as (i & F & Hi). apply fragment_token_inj in F. lia. }
    assert (ps_ref_index s' = ps_ref_index s + 1 /\ ps_ref_cache s' = ps_ref_cache s) as [E2 E3] by (split; reflexivity).
    destruct (IH s') as [I1 I2].
    + intros k Hk. rewrite E1, map_app in Hk. rewrite E2. apply in_app_or in Hk as [Hk|[<-|[]]]; [apply H1 in Hk as (i & -> & Hi); exists i; split; [reflexivity|lia]|]. cbn [fst]. exists (ps_ref_index s + 1). split; [reflexivity|lia].
    + rewrite E2, E3. intros i h Hi. specialize (H2 i h Hi). lia.
    + rewrite I1, I2, E1, E2, E3, <- app_assoc. split; reflexivity.
  - set (s' := stock (Address x) s). assert (ps_ref_cache s' = ps_ref_cache s ++ [(ps_ref_index s + 1, x)]) as E1.
    { unfold s', stock. cbn [ps_ref_cache set_ref_cache]. apply nm_fresh. intros i h Hi. specialize (H2 i h Hi). lia. }
    assert (ps_ref_index s' = ps_ref_index s + 1 /\ ps_shelf s' = ps_shelf s) as [E2 E3] by (split; reflexivity).
    destruct (IH s') as [I1 I2].
    + intros k Hk. rewrite E3 in Hk. rewrite E2. apply H1 in Hk as (i & -> & Hi). exists i. split; [reflexivity|lia].
    + rewrite E1, E2. intros i h Hi. apply in_app_or in Hi as [Hi|[E|[]]]; [specialize (H2 i h Hi); lia|injection E as <- _; lia].
    + rewrite I1, I2, E1, E2, E3, <- app_assoc. split; reflexivity.
Qed.
End Stock.

(** ** Text with URL tokens *)
Section Urls.
Variables (W : world) (T : textile).
Hypothesis uid_simple : simple_uid (t_uid T).
Notation uid := (t_uid T).
Notation tok n := (fragment_token T n).
Definition url_token (i : N) : str := uid ++ dec i ++ u ":url".
Definition colons (t : str) : nat := List.length (List.filter (N.eqb 58) t).
Lemma colons_app a b : colons (a ++ b) = (colons a + colons b)%nat.
Proof. unfold colons. rewrite filter_app, app_length. reflexivity. Qed.
Lemma colons_none a : ~ In 58 a -> colons a = 0%nat.
Proof. intros H. induction a as [|c a IH]; [reflexivity|]. unfold colons in *. cbn [List.filter]. destruct (N.eqb_spec 58 c) as [<-|]; [destruct H; left; reflexivity|]. apply IH. intros F. apply H. right. exact F. Qed.
Lemma none_colons a : colons a = 0%nat -> ~ In 58 a.
Proof.
  intros H F. induction a as [|c a IH]; [destruct F|]. unfold colons in *. cbn [List.filter] in H. destruct (N.eqb_spec 58 c) as [<-|]; [discriminate|]. destruct F as [F|F]; [congruence|]. auto.
Qed.
Lemma last_colon : forall a b (x y : str), ~ In 58 x -> ~ In 58 y -> a ++ 58 :: x = b ++ 58 :: y -> x = y.
Proof.
  induction a as [|c a IH]; intros [|d b] x y Hx Hy E; cbn [app] in E.
  - injection E as E. exact E.
  - injection E as <- E. subst x. destruct Hx. apply in_or_app. right. left. reflexivity.
  - injection E as -> E. subst y. destruct Hy. apply in_or_app. right. left. reflexivity.
  - injection E as _ E. eapply IH; eauto.
Qed.
Lemma dec_colon i : ~ In 58 (dec i).
Proof. destruct (dec_spec i) as (_ & Hd & _). rewrite forallb_forall in Hd. intros F. apply Hd in F. discriminate. Qed.
Lemma url_token_without d t i : ~ In 58 d -> ~ In 58 t -> starts_with t (u "url") = false -> contains (uid ++ d ++ 58 :: t) (url_token i) = false.
Proof.
  intros Hd Ht Hp. destruct (contains _ _) eqn:E; auto. exfalso. apply contains_split in E as (a & b & E). unfold url_token in E. change (u ":url") with (58 :: u "url") in E.
  assert (colons (uid ++ dec i ++ 58 :: u "url") = colons (a ++ (uid ++ d ++ 58 :: t) ++ b)) as C by (rewrite <- E; reflexivity).
  change (58 :: u "url") with ([58] ++ u "url") in C. change (58 :: t) with ([58] ++ t) in C. rewrite !colons_app, (colons_none d), (colons_none t), (colons_none (dec i)) in C by auto using dec_colon. change (colons [58]) with 1%nat in C. change (colons (u "url")) with 0%nat in C.
  assert (colons b = 0%nat) as Cb by lia. apply none_colons in Cb.
  assert ((uid ++ dec i) ++ 58 :: u "url" = (a ++ uid ++ d) ++ 58 :: (t ++ b)) as E' by (rewrite <- !app_assoc; rewrite E; rewrite <- !app_assoc; reflexivity).
  apply last_colon in E'.
  - rewrite E' in Hp. clear - Hp. assert (forall t b : str, starts_with t (t ++ b) = true) as Q by (clear; induction t as [|c t IH]; intros b; [reflexivity|]; cbn [app starts_with]; rewrite N.eqb_refl; apply IH). rewrite Q in Hp. discriminate.
  - vm_compute. intuition discriminate.
  - intros F. apply in_app_or in F as [F|F]; auto.
Qed.
Lemma uid_34 : ~ In 34 uid. Proof. apply uid_without; auto. Qed.
Lemma dec_34 i : ~ In 34 (dec i).
Proof. destruct (dec_spec i) as (_ & Hd & _). rewrite forallb_forall in Hd. intros F. apply Hd in F. discriminate. Qed.
Lemma cutter_34 : cutter 34. Proof. split; reflexivity. Qed.
Lemma word_chain w : forall c v, word (fold_right (fun d r c => RSeq (RCls (ProofParse.one c)) (r d)) (fun c => RCls (ProofParse.one c)) w c) v -> v = c :: w.
Proof.
  induction w as [|d w IH]; intros c v H; cbn [fold_right] in H.
  - inversion H as [|k0 x Hk| | | | | | | | | | |]; subst. rewrite in_one in Hk. apply N.eqb_eq in Hk as ->. reflexivity.
  - inversion H as [| |r1 r2 v1 v2 P1 P2| | | | | | | | | |]; subst. inversion P1 as [|k0 x Hk| | | | | | | | | | |]; subst. rewrite in_one in Hk. apply N.eqb_eq in Hk as ->. cbn [app]. f_equal. apply IH. exact P2.
Qed.
Section Table.
Variable urls : list (N * str).
Inductive urled : str -> str -> Prop :=
| ur_plain w : uid_free T w -> urled w w
| ur_url w i h y z : uid_free T w -> assocN i urls = Some h -> i <= u32_max -> urled y z -> urled (w ++ 34 :: url_token i ++ 34 :: y) (w ++ 34 :: h ++ 34 :: z).
Lemma free_glue d a b : cutter d -> uid_free T a -> uid_free T b -> uid_free T (a ++ d :: b).
Proof. intros Hd Ha Hb. unfold uid_free in *. rewrite uid_cut_at, Ha, Hb by auto. reflexivity. Qed.
Lemma ur_cut d x y x' y' : cutter d -> urled x y -> urled x' y' -> urled (x ++ d :: x') (y ++ d :: y').
Proof.
  intros Hd H H'. induction H as [w Hw|w i h y z Hw Hi Hu Hy IH].
  - destruct H' as [w' Hw'|w' i h y z Hw' Hi Hu Hy]; [apply ur_plain, free_glue; auto|].
    assert (forall r, w ++ d :: w' ++ r = (w ++ d :: w') ++ r) as E by (intros; rewrite <- app_assoc; reflexivity). rewrite !E. apply ur_url; auto. apply free_glue; auto.
  - assert (forall p q r s : str, (w ++ 34 :: p ++ 34 :: q) ++ d :: s = w ++ 34 :: p ++ 34 :: q ++ d :: s) as E by (intros; rewrite <- !app_assoc; cbn [app]; rewrite <- !app_assoc; reflexivity). rewrite !E by exact []. apply ur_url; auto.
Qed.
(** What is not in the text. *)
Lemma ur_without k x y : ~ In 34 k -> k <> [] -> (forall w, uid_free T w -> contains k w = false) -> (forall i, contains k (url_token i) = false) -> urled x y -> contains k x = false.
Proof.
  intros Hk Hn Hw Hu H. induction H as [w H|w i h y z H Hi Hb Hy IH]; [apply Hw; exact H|]. rewrite !contains_cut by auto. rewrite Hw, Hu, IH by auto. reflexivity.
Qed.
Lemma ur_lacks d t x y : ~ In 34 (d ++ 58 :: t) -> ~ In 58 d -> ~ In 58 t -> starts_with t (u "url") = false -> urled x y -> contains (uid ++ d ++ 58 :: t) x = false.
Proof.
  intros H34 Hd Ht Hp H. eapply ur_without; [| | | |exact H].
  - intros F. apply in_app_or in F as [F|F]; [apply uid_34; exact F|auto].
  - pose proof (uid_ne _ uid_simple). destruct (t_uid T); [congruence|discriminate].
  - intros w Hw. apply contains_more. exact Hw.
  - intros i. apply url_token_without; auto.
Qed.
Lemma contains_left : forall (a b t : str), contains a t = false -> contains (a ++ b) t = false.
Proof. intros. apply contains_more. assumption. Qed.
Lemma ur_pass shelf x y : tokens T shelf -> urled x y -> retrieve_pass shelf x = x.
Proof.
  intros Hto H. unfold retrieve_pass. induction shelf as [|[k v] sh IH]; [reflexivity|]. cbn [fold_left fst snd]. destruct (Hto k (or_introl eq_refl)) as (i & ->). rewrite replace_absent.
  - apply IH. intros k Hk. apply Hto. right. exact Hk.
  - apply tok_ne; auto.
  - unfold fragment_token. change (u ":shelve") with (58 :: u "shelve"). eapply ur_lacks; [|apply dec_colon|vm_compute; intuition discriminate|reflexivity|exact H]. 
    intros F. apply in_app_or in F as [F|F]; [apply dec_34 in F; exact F|vm_compute in F; intuition discriminate].
Qed.
Lemma ur_glyph x y : urled x y -> contains (uid ++ u ":glyph:") x = false.
Proof.
  intros H. change (u ":glyph:") with ((58 :: u "glyph") ++ u ":"). rewrite app_assoc. apply contains_left. apply (ur_lacks [] (u "glyph") x y); auto; vm_compute; intuition discriminate.
Qed.
Lemma ur_no_match lit k x y : (exists p, lit = p ++ uid) -> ~ In 34 k -> ~ In 58 k -> starts_with k (u "url") = false -> urled x y -> no_match (lit_then lit (rest_re (58 :: k))) x.
Proof.
  intros (p & ->) H34 H58 Hp H a b E. destruct (match_at (lit_then (p ++ uid) (rest_re (58 :: k))) (rev a) b) as [s|] eqn:M; auto. apply match_at_sound in M. apply mat_lit in M. destruct M as (s1 & [M _] & _ & M2). cbn [m_after] in M.
  apply Mat_word in M2 as (w & [E1 _] & Hw). cbn [m_after] in E1.
  assert (exists d, ~ In 58 d /\ ~ In 34 d /\ w = d ++ 58 :: k) as (d & D1 & D2 & ->).
  { unfold rest_re in Hw. inversion Hw as [| |r1 r2 w1 w2 Q1 Q2| | | | | | | | | |]; subst. exists w1. inversion Q1; subst. match goal with H : word (RSeq (RCls num_cls) _) w1 |- _ => rename H into Q3 end. apply word_plus_cls in Q3 as [_ Q3]. rewrite forallb_forall in Q3.
    split; [intros F; apply Q3 in F; discriminate|]. split; [intros F; apply Q3 in F; discriminate|]. f_equal. apply word_chain. exact Q2. }
  pose proof (ur_lacks d k x y) as L. rewrite E, M, E1 in L. rewrite <- !app_assoc in L. assert (forall r : str, a ++ p ++ uid ++ d ++ (58 :: k) ++ r = (a ++ p) ++ (uid ++ d ++ 58 :: k) ++ r) as Ea by (intros; rewrite <- !app_assoc; reflexivity).
  rewrite Ea, contains_mid in L. enough (true = false) by discriminate. apply L; auto; [|rewrite <- Ea; rewrite E, M, E1 in H; rewrite <- !app_assoc in H; exact H].
  intros F. apply in_app_or in F as [F|[F|F]]; auto. discriminate.
Qed.
Lemma ur_tags x y : urled x y -> leaves T (retrieve_tags T x) x.
Proof.
  intros H. unfold retrieve_tags. pose proof (uid_simple_plain _ uid_simple) as uid_ok.
  assert (exists r1, ospan_token_re (t_uid T) = Some r1 /\ no_match (rx_re r1) x) as (r1 & E1 & N1).
  { unfold ospan_token_re. rewrite uid_ok. eexists. split; [reflexivity|]. cbn [rx_re]. rewrite ospan_shape. eapply (ur_no_match uid (u "ospan ")); [exists []; reflexivity|vm_compute; intuition discriminate|vm_compute; intuition discriminate|reflexivity|exact H]. }
  assert (exists r2, cspan_token_re (t_uid T) = Some r2 /\ no_match (rx_re r2) x) as (r2 & E2 & N2).
  { unfold cspan_token_re. rewrite uid_ok. eexists. split; [reflexivity|]. cbn [rx_re]. rewrite cspan_shape. eapply (ur_no_match (32 :: uid) (u "cspan")); [exists [32]; reflexivity|vm_compute; intuition discriminate|vm_compute; intuition discriminate|reflexivity|exact H]. }
  rewrite E1, E2. eapply (leaves_cached_k T) with (x := x).
  - exact E1.
  - intros s. apply no_match_replaceM; auto.
  - apply (leaves_cached T 1619 [] r2 (fun p => replace_allM (rx_re p) retrieve_tag_hit x)); [exact E2|]. intros s. apply no_match_replaceM; auto.
Qed.
Lemma url_shape : rx_re URL_TOKEN_REST = rest_re (u ":url").
Proof. reflexivity. Qed.
Lemma url_hit s lit w i h before rest st text : parse_uint u32_max (dec i) = Some i -> assocN i (ps_ref_cache s) = Some h -> ps_urlrefs s = [] ->
  match_at (lit_then lit (rest_re w)) before text = Some st -> m_caps st = [(1%nat, (dec i ++ w ++ rest, w ++ rest))] ->
  retrieve_url_hit W (mk_hit_of text st) s = Ret h s.
Proof.
  intros Hp Hf Hr _ Hc. unfold retrieve_url_hit, capx, mk_hit_of. cbn [h_caps]. rewrite Hc. unfold cap_text. cbn [find_cap Nat.eqb option_map]. rewrite cap_str_app. cbn [of_opt]. rewrite bind_ret.
  unfold bind, get. rewrite Hp, Hf, Hr. destruct (is_empty h); reflexivity.
Qed.
Lemma ur_yields s x y : ps_ref_cache s = urls -> ps_urlrefs s = [] -> urled x y -> forall before, yields (lit_then uid (rest_re (u ":url"))) (retrieve_url_hit W) before x s y s.
Proof.
  intros Hs Hr H. assert (uid <> []) as Un by (apply uid_ne; auto). induction H as [w Hw|w i h y z Hw Hi Hb Hy IH]; intros before.
  - assert (yields (lit_then uid (rest_re (u ":url"))) (retrieve_url_hit W) before (w ++ []) s (w ++ []) s) as Q.
    { apply yields_pass; [|apply yields_nil, lit_miss; destruct (t_uid T); [congruence|reflexivity]]. apply apart_pass. split; [exact Hw|]. left. reflexivity. }
    rewrite !app_nil_r in Q. exact Q.
  - assert (forall r : str, w ++ 34 :: r = (w ++ [34]) ++ r) as E1 by (intros; rewrite <- app_assoc; reflexivity). rewrite (E1 (url_token i ++ _)), (E1 (h ++ _)). apply yields_pass.
    + apply apart_pass. split; [change (uid_free T (w ++ 34 :: [])); apply free_glue; [apply cutter_34|exact Hw|apply uid_no_colon; auto]|]. right. right. exists w, 34. split; [reflexivity|]. exact uid_34.
    + unfold url_token. assert (forall r : str, (uid ++ dec i ++ u ":url") ++ r = uid ++ dec i ++ u ":url" ++ r) as E2 by (intros; rewrite <- !app_assoc; reflexivity).
      eapply yields_hit; [destruct (t_uid T); [congruence|discriminate]|rewrite E2; apply token_hit; [discriminate|reflexivity]|reflexivity| |].
      * rewrite E2. eapply (url_hit s _ _ i); [apply parse_uint_dec; lia|rewrite Hs; exact Hi|exact Hr|apply token_hit; [discriminate|reflexivity]|reflexivity].
      * change (34 :: y) with ([34] ++ y). change (34 :: z) with ([34] ++ z). apply yields_pass; [|apply IH]. apply apart_pass. split; [apply (uid_no_colon T uid_simple [34]); cbn [In]; intuition discriminate|]. right. right. exists [], 34. split; [reflexivity|]. exact uid_34.
Qed.
Lemma ur_urls s x y : @cache_ok (own T) (ps_cache s) -> ps_borrowed s = false -> ps_ref_cache s = urls -> ps_urlrefs s = [] -> urled x y ->
  exists c, @cache_ok (own T) c /\ retrieve_urls W T x s = Ret y (set_cache c s).
Proof.
  intros Hc Hn Hs Hr H. unfold retrieve_urls. pose proof (uid_simple_plain _ uid_simple) as uid_ok.
  assert (exists r1, url_token_re (t_uid T) = Some r1 /\ rx_re r1 = lit_then uid (rest_re (u ":url"))) as (r1 & E1 & R1).
  { unfold url_token_re. rewrite uid_ok. eexists. split; [reflexivity|]. cbn [rx_re]. rewrite url_shape. reflexivity. }
  rewrite E1. assert (expected (t_uid T) 413 [] = Some r1) as He by exact E1.
  unfold acquire. unfold bind at 1. unfold bind at 1. unfold get. rewrite Hn. unfold ModelBase.put.
  destruct (cached_hit T 413 [] r1 (set_borrowed true s) Hc He) as (c' & E & Hc'). exists c'. split; [exact Hc'|]. unfold bind at 1. rewrite E. unfold bind at 1. rewrite R1.
  erewrite yields_all; [|apply ur_yields; [| |exact H]].
  - unfold bind, release, modify, ret. f_equal. destruct s; cbn in *. subst. reflexivity.
  - exact Hs.
  - exact Hr.
Qed.
End Table.

(** ** The shelf and the URLs *)
Section Both.
Variables (shelf : list (str * str)) (urls : list (N * str)).
Hypothesis Hto : tokens T shelf.
Hypothesis Hnd : NoDup (map fst shelf).
Inductive comes : str -> str -> Prop :=
| cm_plain w : uid_free T w -> comes w w
| cm_tok i x y : In (tok i, x) shelf -> urled urls x y -> comes (tok i) y
| cm_cut x y d x' y' : cutter d -> comes x y -> comes x' y' -> comes (x ++ d :: x') (y ++ d :: y').
Lemma comes_tok i x y : In (tok i, x) shelf -> urled urls x y -> retrieve_pass shelf (tok i) = x.
Proof.
  intros Hi Hx. apply in_split in Hi as (l1 & l2 & ->). unfold retrieve_pass. rewrite fold_left_app. cbn [fold_left fst snd].
  assert (forall l, tokens T l -> ~ In (tok i) (map fst l) -> fold_left (fun t kv => replace_str t (fst kv) (snd kv)) l (tok i) = tok i) as Q.
  { induction l as [|[k v] l IH]; intros H1 H2; [reflexivity|]. cbn [fold_left fst snd]. destruct (H1 k (or_introl eq_refl)) as (j & ->). rewrite replace_absent.
    - apply IH; [intros k Hk; apply H1; right; exact Hk|]. intros F. apply H2. right. exact F.
    - apply tok_ne; auto.
    - apply (tok_apart T uid_simple). intros ->. apply H2. left. reflexivity. }
  rewrite map_app in Hnd. cbn [map fst] in Hnd. rewrite Q.
  - rewrite replace_self by (apply tok_ne; auto). apply (ur_pass urls l2 x y); [|exact Hx]. intros k Hk. apply Hto. rewrite map_app. apply in_or_app. right. right. exact Hk.
  - intros k Hk. apply Hto. rewrite map_app. apply in_or_app. left. exact Hk.
  - intros F. apply NoDup_remove_2 in Hnd. apply Hnd. apply in_or_app. left. exact F.
Qed.
Lemma comes_pass x z : comes x z -> exists y, retrieve_pass shelf x = y /\ urled urls y z.
Proof.
  intros H. induction H as [w Hw|i x y Hi Hx|x y d x' y' Hd H1 (v & V1 & V2) H2 (v' & V1' & V2')].
  - exists w. split; [apply (pass_absent T uid_simple); auto|apply ur_plain; exact Hw].
  - exists x. split; [eapply comes_tok; eauto|exact Hx].
  - exists (v ++ d :: v'). split; [rewrite (pass_cut_at T uid_simple shelf Hto) by auto; congruence|]. apply ur_cut; auto.
Qed.
Lemma comes_element x y : comes x y -> comes (element (u "p") x) (element (u "p") y).
Proof.
  intros H. unfold element. change (u "<" ++ u "p" ++ u ">" ++ ?z) with ([60; 112] ++ 62 :: z). change (u "</" ++ u "p" ++ u ">") with (60 :: [47; 112; 62]).
  apply cm_cut; [apply cutter_62|apply cm_plain, uid_no_colon; auto; vm_compute; intuition discriminate|]. apply cm_cut; [apply cutter_60|exact H|]. apply cm_plain, uid_no_colon; auto. vm_compute; intuition discriminate.
Qed.
Lemma comes_nil : comes [] [].
Proof. apply cm_plain, uid_no_colon; auto. Qed.
Lemma comes_sections xs ys : Forall2 comes xs ys -> comes (sections xs) (sections ys).
Proof.
  intros H. induction H as [|x y xs ys Hxy H IH]; [apply comes_nil|]. destruct H as [|x' y' xs ys Hxy' H]; [exact Hxy|]. rewrite !sections_cons by discriminate.
  apply cm_cut; [apply cutter_10|exact Hxy|]. apply (cm_cut [] [] 10); [apply cutter_10|apply comes_nil|exact IH].
Qed.
End Both.
End Urls.
