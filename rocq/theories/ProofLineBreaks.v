(** The newlines in paragraphs and headings, in any text. *)
From Verif Require Import Str Unicode Regex RegexParse RegexSnips RegexTheory RegexAuto Lib ModelBase ModelHtml ModelInline ModelParser ProofParse ProofTags ProofSpecial ProofDoc ProofWeave ProofFootHits ProofReferences SpecLineBreaks.
#[local] Arguments u : simpl never.

(** ** Newlines *)
Definition keep_c : cls := mk_cls false [CProp false PSpace; CRange 124 124].
Lemma in_keep c : in_cls keep_c c = is_ws c || (c =? 124).
Proof.
  unfold in_cls, keep_c. cbn [c_neg c_items existsb in_item has_prop]. rewrite orb_false_r, xorb_false_l. f_equal; [destruct (is_ws c); reflexivity|].
  destruct (N.eqb_spec c 124) as [->|]; [reflexivity|]. destruct (N.leb_spec 124 c), (N.leb_spec c 124); auto; lia.
Qed.
Definition line_re : re := RSeq (RCls (one 10)) (RNLook (RCls keep_c)).
Lemma line_shape : rx_re PBR_NEWLINE_RE = line_re. Proof. reflexivity. Qed.
Lemma look_keep b t cs k : m (RNLook (RCls keep_c)) (mk_mst b t cs) k = if keeps t then None else k (mk_mst b t cs).
Proof. rewrite m_nlook. destruct t as [|c t]; [rewrite m_cls_nil; reflexivity|]. rewrite m_cls, in_keep. cbn [keeps]. destruct (is_ws c || (c =? 124)); reflexivity. Qed.
Lemma line_at b c t cs k : m line_re (mk_mst b (c :: t) cs) k = if (c =? 10) && negb (keeps t) then k (mk_mst (c :: b) t cs) else None.
Proof. unfold line_re. rewrite m_seq, m_cls, in_one. destruct (c =? 10); [|reflexivity]. rewrite look_keep. destruct (keeps t); reflexivity. Qed.
Lemma line_nil b cs k : m line_re (mk_mst b [] cs) k = None.
Proof. unfold line_re. rewrite m_seq, m_cls_nil. reflexivity. Qed.
Lemma lines_scan br : forall t before last,
  flat_map (fun g => match g with Lit c => [c] | Hit _ => br end) (scan line_re before t O last) = break_lines br t.
Proof.
  induction t as [|c t IH]; intros before last.
  - rewrite scan_nil. unfold match_at. rewrite line_nil. destruct last; reflexivity.
  - cbn [break_lines]. destruct ((c =? 10) && negb (keeps t)) eqn:E.
    + rewrite (scan_take line_re before [c] t (mk_mst (c :: before) t [])); [|discriminate|unfold match_at; cbn [app]; rewrite line_at, E; reflexivity|reflexivity]. cbn [flat_map]. rewrite IH. reflexivity.
    + rewrite scan_cons. unfold match_at. rewrite line_at, E. cbn [flat_map]. rewrite IH. reflexivity.
Qed.
Lemma lines_broken br t : replace_all (rx_re PBR_NEWLINE_RE) (fun _ => br) t = break_lines br t.
Proof. unfold replace_all, segs. rewrite line_shape. apply lines_scan. Qed.

(** ** Break tags in front of them *)
Definition two (a b : N) : cls := mk_cls false [CRange a a; CRange b b].
Lemma in_two a b c : in_cls (two a b) c = (c =? a) || (c =? b).
Proof.
  unfold in_cls, two. cbn [c_neg c_items existsb in_item]. rewrite orb_false_r, xorb_false_l. f_equal; [destruct (N.eqb_spec c a) as [->|]; [rewrite N.leb_refl; reflexivity|destruct (N.leb_spec a c), (N.leb_spec c a); auto; lia]|].
  destruct (N.eqb_spec c b) as [->|]; [rewrite N.leb_refl; reflexivity|destruct (N.leb_spec b c), (N.leb_spec c b); auto; lia].
Qed.
Definition tag_re (R : re) : re := RSeq (RCls (one 60)) (RSeq (RCls (two 98 66)) (RSeq (RCls (two 114 82)) (RSeq (RStar true (RCls (one 32))) (RSeq (optional (one 47)) (RSeq (RCls (one 62)) R))))).
Definition rest_re : re := RSeq (RStar true (RCls space_c)) line_re.
Lemma break_shape : rx_re PBR_BR_RE = tag_re rest_re. Proof. reflexivity. Qed.
Lemma star_all c k : forall w before rest cs, forallb (in_cls c) w = true -> stops c rest ->
  (forall w1 x w2, w = w1 ++ x :: w2 -> k (mk_mst (rev w1 ++ before) (x :: w2 ++ rest) cs) = None) ->
  m (RStar true (RCls c)) (mk_mst before (w ++ rest) cs) k = k (mk_mst (rev w ++ before) rest cs).
Proof.
  intros w before rest cs Hw Hr Hk. destruct (k (mk_mst (rev w ++ before) rest cs)) as [y|] eqn:E; [apply m_star_greedy; assumption|]. apply m_star_none; [exact Hr|].
  intros w1 w2 ->. destruct w2 as [|x w2]; [rewrite app_nil_r in E; exact E|]. cbn [app]. eapply Hk. reflexivity.
Qed.
Lemma spaces_split t : exists w, t = w ++ spaces_off t /\ forallb (in_cls (one 32)) w = true /\ stops (one 32) (spaces_off t).
Proof.
  induction t as [|c t (w & E & Hw & Hs)]; [exists []; repeat split|]. cbn [spaces_off]. destruct (c =? 32) eqn:Ec.
  - exists (c :: w). split; [cbn [app]; rewrite <- E; reflexivity|]. split; [|exact Hs]. cbn [forallb]. rewrite in_one, Ec, Hw. reflexivity.
  - exists []. repeat split. cbn [stops]. rewrite in_one. exact Ec.
Qed.
Definition slash (t : str) : str := match t with c :: _ => if c =? 47 then [47] else [] | [] => [] end.
Lemma slash_split t : t = slash t ++ slash_off t.
Proof. destruct t as [|c t]; [reflexivity|]. cbn [slash slash_off]. destruct (N.eqb_spec c 47) as [->|]; reflexivity. Qed.
Lemma slash_at R b t cs k : m (RSeq (optional (one 47)) (RSeq (RCls (one 62)) R)) (mk_mst b t cs) k =
  match slash_off t with d :: r => if d =? 62 then m R (mk_mst (62 :: rev (slash t) ++ b) r cs) k else None | [] => None end.
Proof.
  assert (H62 : forall b t, m (RSeq (RCls (one 62)) R) (mk_mst b t cs) k = match t with d :: r => if d =? 62 then m R (mk_mst (62 :: b) r cs) k else None | [] => None end).
  { intros b' [|d r]; rewrite m_seq; [apply m_cls_nil|]. rewrite m_cls, in_one. destruct (N.eqb_spec d 62) as [->|]; reflexivity. }
  rewrite m_seq. unfold optional. rewrite m_alt, m_eps. destruct t as [|c t]; [rewrite m_cls_nil; apply H62|]. cbn [slash_off slash]. rewrite m_cls, in_one, !H62. destruct (N.eqb_spec c 47) as [->|].
  - cbn [N.eqb Pos.eqb rev app]. destruct t as [|d r]; [reflexivity|]. destruct (d =? 62); [|reflexivity]. destruct (m R (mk_mst (62 :: 47 :: b) r cs) k); reflexivity.
  - reflexivity.
Qed.
Lemma tag_hit R t r : break_tag_at t = Some r -> exists w, w <> [] /\ t = w ++ r /\ forall b cs k, m (tag_re R) (mk_mst b t cs) k = m R (mk_mst (rev w ++ b) r cs) k.
Proof.
  destruct t as [|a [|b [|c t]]]; try discriminate. cbn [break_tag_at]. destruct ((a =? 60) && ((b =? 98) || (b =? 66)) && ((c =? 114) || (c =? 82))) eqn:E; [|discriminate].
  apply andb_prop in E as [E E3]. apply andb_prop in E as [E1 E2]. destruct (spaces_split t) as (w & Et & Hw & Hs). intros H.
  exists (a :: b :: c :: w ++ slash (spaces_off t) ++ [62]). split; [discriminate|].
  assert (Es : slash_off (spaces_off t) = 62 :: r). { destruct (slash_off (spaces_off t)) as [|d z]; [discriminate|]. destruct (N.eqb_spec d 62) as [->|]; [|discriminate]. injection H as <-. reflexivity. }
  split.
  - rewrite Et at 1. rewrite (slash_split (spaces_off t)) at 1. rewrite Es. cbn [app]. repeat (rewrite <- app_assoc; cbn [app]). reflexivity.
  - intros b0 cs k. unfold tag_re. rewrite m_seq, m_cls, in_one, E1, m_seq, m_cls, in_two, E2, m_seq, m_cls, in_two, E3, m_seq. rewrite Et at 1. rewrite star_all; [|exact Hw|exact Hs|].
    + rewrite slash_at, Es. cbn [N.eqb Pos.eqb]. f_equal. f_equal. cbn [rev]. rewrite !rev_app_distr. cbn [rev app]. repeat (rewrite <- app_assoc; cbn [app]). reflexivity.
    + intros w1 x w2 Ew. rewrite slash_at. rewrite Ew, forallb_app in Hw. apply andb_prop in Hw as [_ Hw]. cbn [forallb] in Hw. apply andb_prop in Hw as [Hx _]. rewrite in_one in Hx. apply N.eqb_eq in Hx. subst x. reflexivity.
Qed.
Lemma tag_miss R t : break_tag_at t = None -> forall b cs k, m (tag_re R) (mk_mst b t cs) k = None.
Proof.
  intros H b0 cs k. unfold tag_re. rewrite m_seq. destruct t as [|a t]; [apply m_cls_nil|]. rewrite m_cls, in_one. destruct (a =? 60) eqn:E1; [|reflexivity]. rewrite m_seq. destruct t as [|b t]; [apply m_cls_nil|]. rewrite m_cls, in_two.
  destruct ((b =? 98) || (b =? 66)) eqn:E2; [|reflexivity]. rewrite m_seq. destruct t as [|c t]; [apply m_cls_nil|]. rewrite m_cls, in_two. destruct ((c =? 114) || (c =? 82)) eqn:E3; [|reflexivity].
  cbn [break_tag_at] in H. rewrite E1, E2, E3 in H. cbn [andb] in H. destruct (spaces_split t) as (w & Et & Hw & Hs). rewrite m_seq. rewrite Et. rewrite star_all; [|exact Hw|exact Hs|].
  - rewrite slash_at. destruct (slash_off (spaces_off t)) as [|d r]; [reflexivity|]. destruct (d =? 62); [discriminate|reflexivity].
  - intros w1 x w2 Ew. rewrite slash_at. rewrite Ew, forallb_app in Hw. apply andb_prop in Hw as [_ Hw]. cbn [forallb] in Hw. apply andb_prop in Hw as [Hx _]. rewrite in_one in Hx. apply N.eqb_eq in Hx. subst x. reflexivity.
Qed.
Lemma white_split t : forall w r, white t = (w, r) -> t = w ++ r /\ forallb is_ws w = true /\ match r with c :: _ => is_ws c = false | [] => True end.
Proof.
  induction t as [|c t IH]; cbn [white]; intros w r H; [injection H as <- <-; auto|]. destruct (is_ws c) eqn:E.
  - destruct (white t) as [w' r'] eqn:F. injection H as <- <-. destruct (IH _ _ eq_refl) as (-> & H1 & H2). split; [reflexivity|]. split; [|exact H2]. cbn [forallb]. rewrite E, H1. reflexivity.
  - injection H as <- <-. auto.
Qed.
Lemma stops_white r : match r with c :: _ => is_ws c = false | [] => True end -> stops space_c r.
Proof. destruct r as [|c r]; [auto|]. intros H. cbn [stops]. rewrite in_space. exact H. Qed.
Lemma not_line b r cs k : match r with c :: _ => is_ws c = false | [] => True end -> m line_re (mk_mst b r cs) k = None.
Proof. destruct r as [|c r]; [intros _; apply line_nil|]. intros H. rewrite line_at. destruct (N.eqb_spec c 10) as [->|]; [discriminate|reflexivity]. Qed.
Lemma rest_hit b w r : ends_line w = true -> forallb is_ws w = true -> match r with c :: _ => is_ws c = false | [] => True end -> keeps r = false ->
  m rest_re (mk_mst b (w ++ r) []) Some = Some (mk_mst (rev w ++ b) r []).
Proof.
  intros He Hw Hr Hk. unfold ends_line in He. destruct (rev w) as [|x v] eqn:Ew; [discriminate|]. apply N.eqb_eq in He. subst x.
  assert (w = rev v ++ [10]) as -> by (rewrite <- (rev_involutive w), Ew; reflexivity). unfold rest_re. rewrite m_seq. rewrite <- app_assoc. apply (m_star_back space_c _ _ [10] (rev v) b r []).
  - rewrite forallb_forall in Hw |- *. intros c Hc. rewrite in_space. apply Hw. exact Hc.
  - apply stops_white, Hr.
  - cbn [app]. rewrite line_at, Hk. cbn [N.eqb Pos.eqb andb negb]. rewrite rev_involutive. reflexivity.
  - intros v1 v2 x E. destruct v1 as [|y v1]; [|destruct v1; discriminate]. injection E as <- <-. cbn [app]. apply not_line. exact Hr.
Qed.
Lemma rest_miss b w r cs k : forallb is_ws w = true -> match r with c :: _ => is_ws c = false | [] => True end -> ends_line w && negb (keeps r) = false -> m rest_re (mk_mst b (w ++ r) cs) k = None.
Proof.
  intros Hw Hr He. unfold rest_re. rewrite m_seq. apply m_star_none; [apply stops_white, Hr|]. intros w1 w2 ->. destruct w2 as [|c w2]; [apply not_line, Hr|]. cbn [app]. rewrite line_at.
  destruct (N.eqb_spec c 10) as [->|]; [|reflexivity]. destruct w2 as [|d w2].
  - unfold ends_line in He. rewrite rev_app_distr in He. cbn [rev app N.eqb Pos.eqb andb] in He |- *. rewrite He. reflexivity.
  - rewrite forallb_app in Hw. apply andb_prop in Hw as [_ Hw]. cbn [forallb] in Hw. apply andb_prop in Hw as [_ Hw]. apply andb_prop in Hw as [Hd _]. cbn [app keeps]. rewrite Hd. reflexivity.
Qed.
Lemma breaks_scan : forall n t before last, (List.length t <= n)%nat ->
  flat_map (fun g => match g with Lit c => [c] | Hit _ => [10] end) (scan (tag_re rest_re) before t O last) = drop_breaks_of n t.
Proof.
  assert (End : forall before last, flat_map (fun g => match g with Lit c => [c] | Hit _ => [10] end) (scan (tag_re rest_re) before [] O last) = []).
  { intros before last. rewrite scan_nil. unfold match_at. rewrite tag_miss by reflexivity. destruct last; reflexivity. }
  induction n as [|n IH]; intros t before last Hn; [destruct t; [apply End|cbn in Hn; lia]|]. destruct t as [|c t]; [apply End|]. cbn [drop_breaks_of].
  unfold broken_line_at. destruct (break_tag_at (c :: t)) as [r|] eqn:E.
  - destruct (tag_hit rest_re _ _ E) as (w & Hw & Et & Hm). destruct (white r) as [v r'] eqn:Ev. destruct (white_split _ _ _ Ev) as (Er & Hv & Hr). destruct (ends_line v && negb (keeps r')) eqn:Ek.
    + apply andb_prop in Ek as [K1 K2]. apply negb_true_iff in K2. rewrite Et, Er, app_assoc. rewrite (scan_take _ before (w ++ v) r' (mk_mst (rev v ++ rev w ++ before) r' [])).
      * cbn [flat_map app]. f_equal. apply IH. apply (f_equal (@List.length N)) in Et. rewrite Er, !app_length in Et. destruct w; [congruence|]. cbn [List.length] in *. lia.
      * intros F. apply app_eq_nil in F as [F _]. contradiction.
      * unfold match_at. rewrite <- app_assoc, <- Er, <- Et, Hm, Er. apply rest_hit; assumption.
      * reflexivity.
    + rewrite scan_cons. unfold match_at. rewrite Hm, Er, rest_miss by assumption. cbn [flat_map app]. f_equal. apply IH. cbn in Hn. lia.
  - rewrite scan_cons. unfold match_at. rewrite tag_miss by exact E. cbn [flat_map app]. f_equal. apply IH. cbn in Hn. lia.
Qed.
Lemma breaks_dropped t : replace_all (rx_re PBR_BR_RE) (fun _ => [10]) t = drop_breaks t.
Proof. unfold replace_all, segs. rewrite break_shape. apply breaks_scan. lia. Qed.

(** ** Paragraphs and headings *)
Lemma named_at b t cs k : m pbr_names (mk_mst b t cs) k = match named t with Some (w, r) => k (mk_mst (rev w ++ b) r cs) | None => None end.
Proof.
  unfold pbr_names. rewrite m_alt. destruct t as [|c t]; [rewrite m_cls_nil, m_seq; apply m_cls_nil|]. rewrite m_cls, in_one, m_seq, m_cls, in_one. cbn [named]. destruct (N.eqb_spec c 112) as [->|].
  - cbn [N.eqb Pos.eqb rev app]. destruct (k (mk_mst (112 :: b) t cs)); reflexivity.
  - destruct t as [|d t]; [destruct (c =? 104); [apply m_cls_nil|reflexivity]|]. destruct (c =? 104); [|reflexivity]. rewrite m_cls. unfold in_cls. cbn [c_neg c_items existsb in_item]. rewrite orb_false_r, xorb_false_l. cbn [andb].
    destruct ((49 <=? d) && (d <=? 54)); reflexivity.
Qed.
Lemma named_is t w r : named t = Some (w, r) -> t = w ++ r.
Proof.
  destruct t as [|c t]; [discriminate|]. cbn [named]. destruct (c =? 112); [intros H; injection H as <- <-; reflexivity|]. destruct t as [|d t]; [discriminate|].
  destruct ((c =? 104) && (49 <=? d) && (d <=? 54)); [|discriminate]. intros H. injection H as <- <-. reflexivity.
Qed.
Definition other : cls := mk_cls true [CRange 62 62].
Lemma in_other c : in_cls other c = negb (c =? 62).
Proof. unfold in_cls, other. cbn [c_neg c_items existsb in_item]. rewrite orb_false_r. destruct (N.eqb_spec c 62) as [->|]; [reflexivity|]. destruct (N.leb_spec 62 c), (N.leb_spec c 62); auto; lia. Qed.
Lemma bracket_some t : forall a r, to_bracket t = Some (a, r) -> t = a ++ 62 :: r /\ ~ In 62 a.
Proof.
  induction t as [|c t IH]; cbn [to_bracket]; [discriminate|]. intros a r. destruct (N.eqb_spec c 62) as [->|]; [intros H; injection H as <- <-; split; [reflexivity|intros []]|].
  destruct (to_bracket t) as [[a' r']|]; [|discriminate]. intros H. injection H as <- <-. destruct (IH _ _ eq_refl) as [-> H1]. split; [reflexivity|]. intros [F|F]; [congruence|contradiction].
Qed.
Lemma bracket_none t : to_bracket t = None -> ~ In 62 t.
Proof. induction t as [|c t IH]; cbn [to_bracket]; intros H F; [destruct F|]. destruct (N.eqb_spec c 62) as [->|]; [discriminate|]. destruct (to_bracket t) as [[? ?]|]; [discriminate|]. destruct F; [congruence|]. apply IH; auto. Qed.
Lemma starts_is e : forall t, starts_with e t = true -> t = e ++ skipn (List.length e) t.
Proof. induction e as [|c e IH]; intros t H; [reflexivity|]. destruct t as [|d t]; [discriminate|]. cbn [starts_with] in H. apply andb_prop in H as [H1 H2]. apply N.eqb_eq in H1. subst d. cbn [List.length skipn app]. rewrite <- IH; auto. Qed.
Lemma last_none e : forall t, to_last e t = None -> forall a b, t = a ++ b -> b <> [] -> starts_with e b = false.
Proof.
  induction t as [|c t IH]; intros H a b E Hb; [destruct a, b; try discriminate; congruence|]. cbn [to_last] in H. destruct (to_last e t) as [[? ?]|] eqn:F; [discriminate|]. destruct (starts_with e (c :: t)) eqn:G; [discriminate|].
  destruct a as [|d a]; [cbn [app] in E; rewrite <- E; exact G|]. injection E as _ E. apply (IH eq_refl a b E Hb).
Qed.
Lemma last_some e : e <> [] -> forall t x r, to_last e t = Some (x, r) -> t = x ++ e ++ r /\ forall a b, a <> [] -> e ++ r = a ++ b -> b <> [] -> starts_with e b = false.
Proof.
  intros He. induction t as [|c t IH]; intros x r H; [discriminate|]. cbn [to_last] in H. destruct (to_last e t) as [[x' r']|] eqn:F.
  - injection H as <- <-. destruct (IH _ _ eq_refl) as [-> H2]. split; [reflexivity|exact H2].
  - destruct (starts_with e (c :: t)) eqn:G; [|discriminate]. apply starts_is in G. injection H as <- <-. split; [exact G|]. intros a b Ha E Hb. rewrite <- G in E. destruct a as [|d a]; [congruence|]. injection E as _ E. apply (last_none e t F a b E Hb).
Qed.
Lemma eat_is w : forall b t cs, eat_lit w (mk_mst b t cs) = if starts_with w t then Some (mk_mst (rev w ++ b) (skipn (List.length w) t) cs) else None.
Proof.
  induction w as [|c w IH]; intros b t cs; [reflexivity|]. cbn [eat_lit m_after]. destruct t as [|d t]; [reflexivity|]. cbn [starts_with]. destruct (N.eqb_spec c d) as [->|]; [|reflexivity]. unfold step. cbn [m_before m_caps andb]. rewrite IH.
  cbn [rev List.length skipn]. rewrite <- app_assoc. reflexivity.
Qed.
Definition close_tag (name : str) : str := 60 :: 47 :: name ++ [62].
Lemma end_tag_is name : end_tag name = close_tag name. Proof. unfold end_tag, close_tag. change (u "</") with [60; 47]. change (u ">") with [62]. reflexivity. Qed.
Lemma starts_snoc w x : forall t, starts_with (w ++ [x]) t = starts_with w t && match skipn (List.length w) t with c :: _ => x =? c | [] => false end.
Proof. induction w as [|c w IH]; intros t; cbn [app]; [destruct t as [|d t]; [reflexivity|cbn [starts_with List.length skipn]; rewrite andb_true_r; reflexivity]|]. destruct t as [|d t]; [reflexivity|]. cbn [starts_with List.length skipn]. rewrite IH, andb_assoc. reflexivity. Qed.
Lemma skipn_one n : forall (t : str) x r, skipn n t = x :: r -> skipn (n + 1) t = r.
Proof. induction n as [|n IH]; intros t x r H; [cbn [skipn] in H; subst t; reflexivity|]. destruct t as [|c t]; [discriminate|]. cbn [Nat.add skipn] in *. apply (IH _ _ _ H). Qed.
Lemma close_at name v b t cs k : find_cap 1 cs = Some v -> cap_str v = name ->
  m (RGroup 4 pbr_close) (mk_mst b t cs) k = if starts_with (close_tag name) t then k (mk_mst (62 :: rev name ++ 47 :: 60 :: b) (skipn (List.length (close_tag name)) t) ((4%nat, (t, skipn (List.length (close_tag name)) t)) :: cs)) else None.
Proof.
  intros Hv Hn. rewrite m_group. unfold pbr_close, close_tag. rewrite m_seq. destruct t as [|c t]; [apply m_cls_nil|]. rewrite m_cls, in_one. cbn [starts_with]. rewrite (N.eqb_sym 60). destruct (c =? 60) eqn:E1; [|reflexivity]. rewrite m_seq.
  destruct t as [|d t]; [apply m_cls_nil|]. rewrite m_cls, in_one. cbn [starts_with andb]. rewrite (N.eqb_sym 47). destruct (d =? 47) eqn:E2; [|reflexivity]. cbn [andb]. apply N.eqb_eq in E1, E2. subst c d.
  rewrite m_seq. cbn [m m_caps]. rewrite Hv, Hn, eat_is, starts_snoc. destruct (starts_with name t) eqn:E3; [|reflexivity]. cbn [andb m_after]. pose proof (starts_is _ _ E3) as Et. destruct (skipn (List.length name) t) as [|x r] eqn:Er; [reflexivity|]. rewrite in_one, (N.eqb_sym 62).
  destruct (N.eqb_spec x 62) as [->|]; [|reflexivity]. unfold step. cbn [m_before m_after m_caps List.length skipn]. rewrite app_length. cbn [List.length].
  assert (skipn (List.length name + 1) t = r) as ->; [|reflexivity]. apply (skipn_one _ _ _ _ Er).
Qed.
Lemma pbr_at b t : match_at (rx_re PBR_TAG_RE) b t =
  match paragraph_at t with
  | Some (name, att, x, r) =>
      let A4 := close_tag name ++ r in let A2 := 62 :: x ++ A4 in let A1 := att ++ A2 in
      Some (mk_mst (rev (close_tag name) ++ rev x ++ 62 :: rev att ++ rev name ++ 60 :: b) r [(4%nat, (A4, r)); (3%nat, (x ++ A4, A4)); (2%nat, (A1, A2)); (1%nat, (name ++ A1, A1))])
  | None => None
  end.
Proof.
  unfold match_at. rewrite pbr_shape, m_seq. fold other. unfold paragraph_at. destruct t as [|c t]; [apply m_cls_nil|]. rewrite m_cls, in_one. destruct (N.eqb_spec c 60) as [->|]; [|reflexivity]. rewrite m_seq, m_group, named_at.
  destruct (named t) as [[name t1]|] eqn:E1; [|reflexivity]. apply named_is in E1. subst t. cbn [m_before m_after m_caps]. rewrite m_seq, m_group. destruct (to_bracket t1) as [[att t2]|] eqn:E2.
  2:{ apply bracket_none in E2. rewrite <- (app_nil_r t1) at 1. apply m_star_none; [exact I|]. intros w1 w2 Ew. cbn [m_before m_after m_caps]. rewrite m_seq, app_nil_r. destruct w2 as [|d w2]; [apply m_cls_nil|]. rewrite m_cls, in_one. destruct (N.eqb_spec d 62) as [->|]; [|reflexivity]. destruct E2. rewrite Ew. apply in_or_app. right. left. reflexivity. }
  apply bracket_some in E2 as [E2 Ha]. rewrite E2 at 1.
  assert (Hatt : forall d, In d att -> d <> 62) by (intros d Hd ->; contradiction).
  rewrite end_tag_is. destruct (to_last (close_tag name) t2) as [[x r]|] eqn:E3.
  - apply last_some in E3 as [E3 Hl]; [|discriminate]. cbv zeta. assert (E4 : t1 = att ++ 62 :: x ++ close_tag name ++ r) by (rewrite E2, E3; reflexivity).
    apply m_star_lazy.
    + apply forallb_forall. intros d Hd. rewrite in_other. apply Hatt, N.eqb_neq in Hd. rewrite Hd. reflexivity.
    + intros w1 d w2 Ew. cbn [m_before m_after m_caps]. rewrite m_seq, m_cls, in_one. destruct (N.eqb_spec d 62) as [->|]; [|reflexivity]. destruct Ha. rewrite Ew. apply in_or_app. right. left. reflexivity.
    + cbn [m_before m_after m_caps]. rewrite m_seq, m_cls, in_one. cbn [N.eqb Pos.eqb]. rewrite m_seq, m_group. rewrite E3 at 1. rewrite <- (app_nil_r (close_tag name ++ r)) at 1. apply (m_star_back any_cls _ _ (close_tag name ++ r) x _ []); [apply all_any|exact I| |].
      * cbn [m_before m_after m_caps]. rewrite app_nil_r. rewrite (close_at name (name ++ t1, t1)) by (reflexivity || apply cap_str_app).
        assert (starts_with (close_tag name) (close_tag name ++ r) = true) as -> by (clear; generalize (close_tag name) as e; induction e as [|c e IH]; [reflexivity|]; cbn [app starts_with]; rewrite N.eqb_refl; exact IH).
        assert (skipn (List.length (close_tag name)) (close_tag name ++ r) = r) as -> by (rewrite skipn_app, skipn_all, Nat.sub_diag; reflexivity).
        rewrite E4, E3. f_equal. f_equal. unfold close_tag. cbn [rev]. rewrite rev_app_distr. cbn [rev app]. repeat (rewrite <- app_assoc; cbn [app]). reflexivity.
      * intros v1 v2 z Ev. cbn [m_before m_after m_caps]. rewrite app_nil_r. rewrite (close_at name (name ++ t1, t1)) by (reflexivity || apply cap_str_app). destruct v2 as [|d v2]; [reflexivity|]. rewrite (Hl (v1 ++ [z]) (d :: v2)); [reflexivity|destruct v1; discriminate|exact Ev|discriminate].
  - pose proof (last_none _ _ E3) as Hl. apply m_star_none; [cbn [stops]; rewrite in_other; reflexivity|]. intros w1 w2 Ew. cbn [m_before m_after m_caps]. rewrite m_seq. destruct w2 as [|d w2].
    2:{ cbn [app]. rewrite m_cls, in_one. destruct (N.eqb_spec d 62) as [->|]; [|reflexivity]. destruct Ha. rewrite Ew. apply in_or_app. right. left. reflexivity. }
    cbn [app]. rewrite m_cls, in_one. cbn [N.eqb Pos.eqb]. rewrite m_seq, m_group. rewrite <- (app_nil_r t2) at 1. apply m_star_none; [exact I|]. intros v1 v2 Ev. cbn [m_before m_after m_caps]. rewrite app_nil_r. rewrite (close_at name (name ++ t1, t1)) by (reflexivity || apply cap_str_app).
    destruct v2 as [|d v2]; [reflexivity|]. rewrite (Hl v1 (d :: v2) Ev); [reflexivity|discriminate].
Qed.
Lemma paragraph_is t name att x r : paragraph_at t = Some (name, att, x, r) -> t = (60 :: name ++ att ++ 62 :: x ++ close_tag name) ++ r.
Proof.
  unfold paragraph_at. destruct t as [|c t]; [discriminate|]. destruct (N.eqb_spec c 60) as [->|]; [|discriminate]. destruct (named t) as [[n t1]|] eqn:E1; [|discriminate]. apply named_is in E1. destruct (to_bracket t1) as [[a t2]|] eqn:E2; [|discriminate].
  apply bracket_some in E2 as [E2 _]. rewrite end_tag_is. destruct (to_last (close_tag n) t2) as [[y z]|] eqn:E3; [|discriminate]. apply last_some in E3 as [E3 _]; [|discriminate]. intros H. injection H as <- <- <- <-. rewrite E1, E2, E3. cbn [app]. repeat (rewrite <- app_assoc; cbn [app]). reflexivity.
Qed.
Section Replaced.
Variable T : textile.
Lemma broken_scan n : forall t before last s, (List.length t <= n)%nat -> outcome_is (mapM (replace_segM (f_p_br T)) (scan (rx_re PBR_TAG_RE) before t O last) s) (broken_of (br_tag T) n t) s.
Proof.
  assert (End : forall before last s, outcome_is (mapM (replace_segM (f_p_br T)) (scan (rx_re PBR_TAG_RE) before [] O last) s) [] s).
  { intros before last s. rewrite scan_nil, pbr_at. cbn [paragraph_at]. exists []. destruct last; split; reflexivity. }
  induction n as [|n IH]; intros t before last s Hn; [destruct t; [apply End|cbn in Hn; lia]|]. destruct t as [|c t]; [apply End|]. cbn [broken_of]. pose proof (pbr_at before (c :: t)) as M. destruct (paragraph_at (c :: t)) as [[[[name att] x] r]|] eqn:E.
  - apply paragraph_is in E. cbv zeta in M. rewrite E in M |- *. rewrite (scan_take _ before (60 :: name ++ att ++ 62 :: x ++ close_tag name) r _ last ltac:(discriminate) M eq_refl).
    assert (Hl : (List.length r <= n)%nat). { apply (f_equal (@List.length N)) in E. rewrite app_length in E. cbn [List.length] in E, Hn. lia. }
    destruct (IH r (rev (60 :: name ++ att ++ 62 :: x ++ close_tag name) ++ before) true s Hl) as (l & El & Ex). clear IH M. cbn [mapM replace_segM].
    match goal with |- context [Hit ?h] => idtac | |- context [f_p_br T ?h s] => idtac | |- context [bind (f_p_br T ?h) _ _] => assert (F : f_p_br T h s = Ret (u "<" ++ name ++ att ++ u ">" ++ break_lines (br_tag T) (drop_breaks x) ++ close_tag name) s) end.
    { unfold f_p_br, capx, cap_opt, mk_hit_of. cbn [h_caps m_caps]. unfold cap_text. cbn [find_cap Nat.eqb option_map]. rewrite !cap_str_app. cbn [of_opt]. unfold bind, ret. rewrite breaks_dropped, lines_broken. reflexivity. }
    unfold bind. rewrite F. rewrite El. rewrite <- Ex. eexists. split; [reflexivity|]. cbn [List.concat]. rewrite <- !app_assoc. reflexivity.
  - rewrite scan_cons, M. pose proof (lits_then (f_p_br T) [c] (scan (rx_re PBR_TAG_RE) (c :: before) t 0 false) s) as L. cbn [map app] in L. apply L. apply IH. cbn in Hn. lia.
Qed.
Lemma broken_exact t s : do_p_br T t s = Ret (broken (br_tag T) t) s.
Proof. unfold do_p_br, replace_allM, segs. destruct (broken_scan (List.length t) t [] false s (le_n _)) as (x & E & Ex). unfold bind. rewrite E. unfold ret, broken. rewrite Ex. reflexivity. Qed.
End Replaced.
