(** Quotes that stand alone or around a quotation, in any text. *)
From Verif Require Import Str Unicode Regex RegexParse RegexSnips RegexTheory RegexAuto Lib ModelBase ModelHtml ModelInline ModelParser ProofParse ProofTags ProofDoc ProofWeave ProofSpecial ProofFootHits SpecState ProofState SpecPlain SpecGlyphs ProofSymbolHits
  SpecGlyphRules ProofGlyphRules ProofGlyphSteps SpecGlyphText ProofGlyphText SpecQuoted.
#[local] Arguments u : simpl never.

(** ** The longest first *)
Lemma first_ext {A B} (f g : A -> option B) l : (forall x, f x = g x) -> first_of f l = first_of g l.
Proof. intros H. induction l as [|x l IH]; [reflexivity|]. cbn [first_of]. rewrite H, IH. reflexivity. Qed.
Lemma first_map {A B C} (f : B -> option C) (g : A -> B) l : first_of f (map g l) = first_of (fun x => f (g x)) l.
Proof. induction l as [|x l IH]; [reflexivity|]. cbn [first_of map]. rewrite IH. reflexivity. Qed.
Lemma star_cuts c k rest cs : stops c rest -> forall w before, forallb (in_cls c) w = true ->
  m (RStar true (RCls c)) (mk_mst before (w ++ rest) cs) k = first_of (fun x : str * str => k (mk_mst (rev (fst x) ++ before) (snd x ++ rest) cs)) (cuts w).
Proof.
  intros Hr. assert (G : forall w f before, forallb (in_cls c) w = true -> (List.length w <= List.length f)%nat ->
    star_loop true (RCls c) k f (mk_mst before (w ++ rest) cs) = first_of (fun x : str * str => k (mk_mst (rev (fst x) ++ before) (snd x ++ rest) cs)) (cuts w)).
  { induction w as [|x w IH]; intros f before Hw Hl.
    - cbn [cuts first_of fst snd rev app]. assert (star_loop true (RCls c) k f (mk_mst before rest cs) = k (mk_mst before rest cs)) as ->.
      { destruct f as [|z f]; [reflexivity|]. rewrite star_loop_cons. destruct rest as [|x rest]; [rewrite m_cls_nil; reflexivity|]. rewrite m_cls. cbn [stops] in Hr. rewrite Hr. reflexivity. }
      destruct (k _); reflexivity.
    - destruct f as [|z f]; [cbn in Hl; lia|]. rewrite star_loop_cons. cbn [app]. rewrite m_cls. cbn [forallb] in Hw. apply andb_true_iff in Hw as [Hx Hw]. rewrite Hx.
      rewrite IH; [|exact Hw|cbn in Hl; lia]. cbn [cuts]. rewrite first_app, first_map. cbn [first_of fst snd rev app].
      rewrite (first_ext (fun x0 : str * str => k (mk_mst ((rev (fst x0) ++ [x]) ++ before) (snd x0 ++ rest) cs)) (fun x0 : str * str => k (mk_mst (rev (fst x0) ++ x :: before) (snd x0 ++ rest) cs))) by (intros y; rewrite <- app_assoc; reflexivity).
      destruct (first_of _ _); [reflexivity|]. destruct (k _); reflexivity. }
  intros w before Hw. rewrite m_star. cbn [m_after]. apply G; auto. rewrite app_length. lia.
Qed.
Lemma cuts_is w x : In x (cuts w) -> w = fst x ++ snd x.
Proof.
  revert x. induction w as [|c w IH]; intros x H; [destruct H as [<-|[]]; reflexivity|]. cbn [cuts] in H. apply in_app_or in H as [H|[<-|[]]]; [|reflexivity].
  apply in_map_iff in H as (y & <- & Hy). cbn [fst snd app]. f_equal. apply IH. exact Hy.
Qed.

(** ** The expression *)
Definition not_quote : cls := mk_cls true [CRange 34 34].
Definition tail_re : re := RSeq (RGroup 3 (RCls line_c)) (RCls (one 32)).
Definition quotation_re : re := RAlt (RAlt (RCls (one 34)) REps) (RSeq (RCls (one 34)) (RSeq (RCls not_quote) (RStar true (RCls not_quote)))).
Lemma quoted_shape : rx_re QUOTED_QUOTE_RE = RSeq (RCls (one 32)) (RSeq (RGroup 1 (RCls (mk_cls false (map (fun c => CRange c c) starts)))) (RSeq (RGroup 2 quotation_re) tail_re)).
Proof. vm_compute. reflexivity. Qed.
Lemma in_line d : in_cls line_c d = negb (d =? 10). Proof. apply in_not. Qed.
Lemma in_not_quote d : in_cls not_quote d = negb (d =? 34). Proof. apply in_not. Qed.
Definition tail_k (t0 : str) : mst -> option mst := fun s => m tail_re (mk_mst (m_before s) (m_after s) ((2%nat, (t0, m_after s)) :: m_caps s)) Some.
Lemma tail_at t0 b t cs : tail_k t0 (mk_mst b t cs) =
  match t with c :: d :: r => if negb (c =? 10) && (d =? 32) then Some (mk_mst (d :: c :: b) r ((3%nat, (t, d :: r)) :: (2%nat, (t0, t)) :: cs)) else None | _ => None end.
Proof.
  unfold tail_k, tail_re. cbn [m_before m_after m_caps]. rewrite m_seq, m_group. destruct t as [|c t]; [apply m_cls_nil|]. rewrite m_cls, in_line. destruct (c =? 10); cbn [negb andb]; [destruct t; reflexivity|].
  cbn [m_before m_after m_caps]. destruct t as [|d r]; [apply m_cls_nil|]. rewrite m_cls, in_one. destruct (d =? 32); reflexivity.
Qed.
Definition good (t0 : str) (cs : caps) (o : option mst) (h : option (str * N * str)) : Prop :=
  match h with
  | Some (q, c, r) => exists s, o = Some s /\ m_after s = r /\ m_caps s = (3%nat, (c :: 32 :: r, 32 :: r)) :: (2%nat, (t0, c :: 32 :: r)) :: cs /\ t0 = q ++ c :: 32 :: r
  | None => o = None
  end.
Lemma good_or t0 cs o o' h h' : good t0 cs o h -> good t0 cs o' h' -> good t0 cs (match o with Some y => Some y | None => o' end) (match h with Some y => Some y | None => h' end).
Proof. intros H H'. destruct h as [[[q c] r]|]; cbn [good] in *; [|rewrite H; exact H']. destruct H as (s & -> & H). exists s. auto. Qed.
Lemma good_one t0 cs b x : t0 = fst x ++ snd x -> good t0 cs (tail_k t0 (mk_mst b (snd x) cs)) (closes x).
Proof.
  intros E. rewrite tail_at. unfold closes. destruct x as [q rest]. cbn [fst snd] in *. destruct rest as [|c [|d r]]; try exact eq_refl. destruct (c =? 10); [exact eq_refl|]. cbn [negb andb]. destruct (N.eqb_spec d 32) as [->|]; [|exact eq_refl].
  cbn [good]. eexists. split; [reflexivity|]. split; [reflexivity|]. split; [reflexivity|exact E].
Qed.
Lemma good_first t0 cs (g : str * str -> option mst) (f : str * str -> option (str * N * str)) l : (forall x, In x l -> good t0 cs (g x) (f x)) -> good t0 cs (first_of g l) (first_of f l).
Proof. induction l as [|x l IH]; intros H; [exact eq_refl|]. cbn [first_of]. apply good_or; [apply H; left; reflexivity|apply IH; intros; apply H; right; auto]. Qed.
Lemma or_none {A} (o : option A) : match o with Some y => Some y | None => None end = o. Proof. destruct o; reflexivity. Qed.
Lemma quotation_good b t cs : good t cs (m quotation_re (mk_mst b t cs) (tail_k t)) (first_of closes (quotations t)).
Proof.
  unfold quotation_re, quotations. rewrite !m_alt, !first_app, m_eps.
  assert (forall (a b0 c : option (str * N * str)), match a with Some y => Some y | None => match b0 with Some y => Some y | None => c end end = match match a with Some y => Some y | None => b0 end with Some y => Some y | None => c end) as -> by (intros [|]; reflexivity).
  apply good_or; [apply good_or|].
  - destruct t as [|c t]; [rewrite m_cls_nil; exact eq_refl|]. rewrite m_cls, in_one. destruct (c =? 34); [|exact eq_refl]. cbn [first_of]. rewrite or_none. apply (good_one (c :: t) cs (c :: b) ([c], t)). reflexivity.
  - cbn [first_of]. rewrite or_none. apply (good_one t cs b ([], t)). reflexivity.
  - rewrite m_seq. destruct t as [|c t]; [rewrite m_cls_nil; exact eq_refl|]. rewrite m_cls, in_one. destruct t as [|d t].
    + destruct (c =? 34); [rewrite m_seq, m_cls_nil|]; exact eq_refl.
    + destruct (c =? 34); [|exact eq_refl]. rewrite m_seq, m_cls, in_not_quote. destruct (d =? 34); [exact eq_refl|]. cbn [negb andb]. destruct (run (fun e => negb (e =? 34)) t) as [w r] eqn:E. destruct (run_split _ _ _ _ E) as (Et & Hw & Hr).
      rewrite Et at 2. rewrite star_cuts; [|eapply stop_class; [apply in_not_quote|exact Hr]|eapply run_class; [apply in_not_quote|exact Hw]].
      rewrite first_map. apply good_first. intros x Hx. apply (good_one (c :: d :: t) cs _ (c :: d :: fst x, snd x ++ r)). cbn [fst snd]. rewrite Et, (cuts_is _ _ Hx). cbn [app]. rewrite <- app_assoc. reflexivity.
Qed.
Lemma quote_match before t : match quote_at t with
  | Some (p, (q, c, r)) => exists s, match_at (rx_re QUOTED_QUOTE_RE) before t = Some s /\ m_after s = r /\ t = (32 :: p :: q ++ [c; 32]) ++ r /\
      cap_text 1 (m_caps s) = Some [p] /\ cap_text 2 (m_caps s) = Some q /\ cap_text 3 (m_caps s) = Some [c]
  | None => match_at (rx_re QUOTED_QUOTE_RE) before t = None
  end.
Proof.
  unfold match_at. rewrite quoted_shape, m_seq. destruct t as [|b t]; [reflexivity|]. rewrite m_cls, in_one. destruct t as [|p t]; [cbn [quote_at]; destruct (b =? 32); [rewrite m_seq, m_group, m_cls_nil|]; reflexivity|].
  cbn [quote_at]. destruct (N.eqb_spec b 32) as [->|]; [|reflexivity]. rewrite m_seq, m_group, m_cls, in_list. cbn [andb]. destruct (among starts p); [|reflexivity]. cbn [m_before m_after m_caps]. rewrite m_seq, m_group. fold (tail_k t).
  pose proof (quotation_good (p :: 32 :: before) t [(1%nat, (p :: t, t))]) as G. destruct (first_of closes (quotations t)) as [[[q c] r]|]; cbn [option_map good] in *; [|exact G].
  destruct G as (s & Es & Ea & Ec & Et). exists s. split; [exact Es|]. split; [exact Ea|]. split; [rewrite Et; cbn [app]; rewrite <- app_assoc; reflexivity|]. rewrite Ec.
  split; [|split]; [apply (cap_is _ _ [p] t)|apply (cap_is _ _ q (c :: 32 :: r))|apply (cap_is _ _ [c] (32 :: r))]; cbn [find_cap Nat.eqb]; rewrite <- ?Et; reflexivity.
Qed.
Lemma quote_form t p q c r : quote_at t = Some (p, (q, c, r)) -> among starts p = true /\ (q = [] \/ q = [34] \/ exists d w, q = 34 :: d :: w).
Proof.
  destruct t as [|b [|p' t]]; try discriminate. cbn [quote_at]. destruct (_ && _) eqn:E; [|discriminate]. apply andb_true_iff in E as [_ E].
  destruct (first_of closes (quotations t)) as [[[q' c'] r']|] eqn:F; [|discriminate]. cbn [option_map]. intros H. injection H as <- <- <- <-. split; [exact E|].
  assert (exists x, In x (quotations t) /\ fst x = q') as (x & Hx & <-).
  { clear E. induction (quotations t) as [|x l IH]; [discriminate|]. cbn [first_of] in F. destruct (closes x) as [[[a b0] c0]|] eqn:Ex.
    - injection F as -> -> ->. exists x. split; [left; reflexivity|]. unfold closes in Ex. destruct (snd x) as [|? [|? ?]]; try discriminate. destruct (_ && _); [|discriminate]. congruence.
    - destruct (IH F) as (y & Hy & Ey). exists y. split; [right|]; auto. }
  unfold quotations in Hx. apply in_app_or in Hx as [Hx|Hx]; [|apply in_app_or in Hx as [Hx|Hx]].
  - destruct t as [|d t]; [destruct Hx|]. destruct (N.eqb_spec d 34) as [->|]; [|destruct Hx]. destruct Hx as [<-|[]]. right. left. reflexivity.
  - destruct Hx as [<-|[]]. left. reflexivity.
  - destruct t as [|d [|e t]]; try destruct Hx. destruct (N.eqb_spec d 34) as [->|]; [|destruct Hx]. destruct (negb (e =? 34)); [|destruct Hx]. cbn [andb] in Hx. destruct (run _ t) as [w r0].
    apply in_map_iff in Hx as (y & <- & _). right. right. cbn [fst]. eauto.
Qed.

(** ** One of them *)
Section Quoted.
Variable T : textile.
Hypothesis uid_simple : simple_uid (t_uid T).
Hypothesis dyn : caps_set T.
Lemma fits_is p c : opt_eqb c (matching_quote p) = fits p c.
Proof.
  unfold matching_quote, fits, counterparts. cbn [existsb fst snd].
  repeat match goal with |- context [if p =? ?k then _ else _] => rewrite (N.eqb_sym k p); destruct (N.eqb_spec p k) as [->|]; [cbn [opt_eqb andb orb N.eqb Pos.eqb]; rewrite ?orb_false_r; apply N.eqb_sym|] end.
  cbn [opt_eqb]. repeat match goal with H : p <> ?k |- _ => apply not_eq_sym, N.eqb_neq in H; rewrite H; clear H end. reflexivity.
Qed.
Lemma blen_two d w : Nat.ltb 1 (blen (34 :: d :: w)) = true.
Proof. apply Nat.ltb_lt. cbn [blen]. assert (forall c, (1 <= utf8_len c)%nat) as P by (intros c; unfold utf8_len; repeat (destruct (_ <? _) || destruct (_ <=? _)); lia). pose proof (P 34). pose proof (P d). lia. Qed.
Lemma one_quote h t p q c r s : quote_at t = Some (p, (q, c, r)) -> h_text h = 32 :: p :: q ++ [c; 32] -> cap_text 1 (h_caps h) = Some [p] -> cap_text 2 (h_caps h) = Some q -> cap_text 3 (h_caps h) = Some [c] ->
  f_glyph_quoted_quote T h s = if fits p c then Ret (fragment_token T (ps_ref_index s + 1)) (shelved T s (fragment T p q c)) else Ret (32 :: p :: q ++ [c; 32]) s.
Proof.
  intros Hq Ht C1 C2 C3. destruct (quote_form _ _ _ _ _ Hq) as [Hp Hf]. unfold f_glyph_quoted_quote, capx. rewrite C1, C2, C3. cbn [of_opt]. rewrite !bind_ret. rewrite fits_is. destruct (fits p c) eqn:F; cbn [negb]; [|rewrite Ht; reflexivity].
  assert (p =? 32 = false) as P32.
  { unfold among in Hp. apply existsb_exists in Hp as (x & Hx & E). apply N.eqb_eq in E. subst x. repeat (destruct Hx as [<-|Hx]; [reflexivity|]). destruct Hx. }
  assert (c =? 32 = false) as C32.
  { unfold fits in F. apply existsb_exists in F as (x & Hx & E). apply andb_true_iff in E as [_ E]. apply N.eqb_eq in E. subst c. repeat (destruct Hx as [<-|Hx]; [reflexivity|]). destruct Hx. }
  rewrite P32, C32. cbv zeta. rewrite bind_ret. fold (opening p) (closing c).
  assert (forall k : str -> M str, bind (if Nat.ltb 1 (blen q) then g <- glyphs T q ;; ret (trim_end g) else if seqb q (u """") then ret (u "&quot;") else ret q) k s = k (quotation T q) s) as ->.
  { intros k. destruct Hf as [->|[->|(d & w & ->)]].
    - reflexivity.
    - reflexivity.
    - rewrite blen_two. unfold bind. rewrite (glyphs_exact T uid_simple dyn). reflexivity. }
  reflexivity.
Qed.
(** ** All of them *)
Lemma quoted_end before last : scan (rx_re QUOTED_QUOTE_RE) before [] O last = [].
Proof. rewrite scan_nil. pose proof (quote_match before []) as Q. cbn [quote_at] in Q. rewrite Q. destruct last; reflexivity. Qed.
Lemma shelved_index s x : ps_ref_index (shelved T s x) = ps_ref_index s + 1.
Proof. destruct s; reflexivity. Qed.
Lemma pieces_replaced n : forall t before last s, (List.length t <= n)%nat ->
  outcome_is (mapM (replace_segM (f_glyph_quoted_quote T)) (scan (rx_re QUOTED_QUOTE_RE) before t O last) s)
    (pieces_shown T (pieces_of n t) (ps_ref_index s)) (fold_left (shelved T) (fragments T (pieces_of n t)) s).
Proof.
  induction n as [|n IH]; intros t before last s Hn.
  { destruct t; [|cbn in Hn; lia]. rewrite quoted_end. exists []. split; reflexivity. }
  destruct t as [|d t]; [rewrite quoted_end; exists []; split; reflexivity|]. cbn [pieces_of]. pose proof (quote_match before (d :: t)) as Q. destruct (quote_at (d :: t)) as [[p [[q c] r]]|] eqn:E.
  - destruct Q as (s0 & M & Ma & Et & C1 & C2 & C3). rewrite Et in M |- *. rewrite (scan_take _ _ (32 :: p :: q ++ [c; 32]) r s0) by (auto; discriminate). cbn [mapM replace_segM]. unfold bind at 1.
    rewrite (one_quote (mk_hit_of ((32 :: p :: q ++ [c; 32]) ++ r) s0) (d :: t) p q c r s E); auto; [|unfold mk_hit_of; cbn [h_text]; rewrite Ma; apply cap_str_app].
    assert (Hl : (List.length r <= n)%nat). { apply (f_equal (@List.length N)) in Et. cbn [List.length app] in Et. rewrite !app_length in Et. cbn in Hn. lia. }
    cbn [pieces_shown fragments]. destruct (fits p c).
    + cbn [fold_left]. destruct (IH r (rev (32 :: p :: q ++ [c; 32]) ++ before) true (shelved T s (fragment T p q c)) Hl) as (l & El & Ex). unfold bind. rewrite El. eexists. split; [reflexivity|]. cbn [List.concat]. rewrite Ex, shelved_index. reflexivity.
    + destruct (IH r (rev (32 :: p :: q ++ [c; 32]) ++ before) true s Hl) as (l & El & Ex). unfold bind. rewrite El. eexists. split; [reflexivity|]. cbn [List.concat]. rewrite Ex. reflexivity.
  - rewrite scan_cons, Q. pose proof (lits_then (f_glyph_quoted_quote T) [d] (scan (rx_re QUOTED_QUOTE_RE) (d :: before) t 0 false) s) as L. cbn [map app] in L. cbn [pieces_shown fragments].
    apply L. apply IH. cbn in Hn. lia.
Qed.
Lemma quoted_exact t s : glyph_quoted_quote T t s = Ret (pieces_shown T (pieces t) (ps_ref_index s)) (fold_left (shelved T) (fragments T (pieces t)) s).
Proof.
  unfold glyph_quoted_quote, replace_allM, segs. destruct (pieces_replaced (List.length t) t [] false s (le_n _)) as (x & E & Ex). unfold bind. rewrite E. unfold ret, pieces. rewrite Ex. reflexivity.
Qed.
End Quoted.
Lemma pieces_source n : forall t, (List.length t <= n)%nat -> flat_map piece_source (pieces_of n t) = t.
Proof.
  induction n as [|n IH]; intros t Hn; [destruct t; [reflexivity|cbn in Hn; lia]|]. destruct t as [|d t]; [reflexivity|]. cbn [pieces_of]. pose proof (quote_match [] (d :: t)) as Q. destruct (quote_at (d :: t)) as [[p [[q c] r]]|].
  - destruct Q as (s0 & _ & _ & Et & _). cbn [flat_map piece_source]. rewrite IH; [symmetry; exact Et|]. apply (f_equal (@List.length N)) in Et. cbn [List.length app] in Et. rewrite !app_length in Et. cbn in Hn. lia.
  - cbn [flat_map piece_source app]. f_equal. apply IH. cbn in Hn. lia.
Qed.
