(** The texts of documents with footnotes are those of the automata. *)
From Verif Require Import Str Unicode Regex RegexParse RegexSnips RegexTheory RegexAuto Lib ModelBase ModelHtml ModelInline ModelParser ProofPlain ProofParas ProofText ProofParse ProofWeave ProofListText ProofTags ProofSpecial ProofDoc ProofSections ProofListDoc SpecPlain SpecText SpecLists SpecFootnotes ProofFootAuto ProofFootHits.
#[local] Arguments u : simpl never.
(** The source of a footnote. *)
Definition fnsrc_a : auto := Eval vm_compute in mk_auto
  (au_trans item_text ++ reads 700 701 (u "fn") 705 ++ run 705 digit 706 ++ [(706, ch 94, 707); (706, ch 46, 708); (707, ch 46, 708); (708, blank, 1)])%nat 700%nat (au_final item_text).
Lemma fnsrc_small : forallb (never fnsrc_a) small_re = true.
Proof. vm_compute. reflexivity. Qed.
Lemma fresult_ends : forallb (never fresult_a) [RCls (ch 10); end_newline] = true.
Proof. vm_compute. reflexivity. Qed.
Lemma fnote_ends : forallb (never fnote_a) [RCls (ch 10); end_newline] = true.
Proof. vm_compute. reflexivity. Qed.

Definition digit_chars : str := u "0123456789".
Definition after_one (A : auto) (q q' : nat) (cs : str) : bool := forallb (fun c => mem q' (walk A [q] [c]) && mem q' (walk A [q'] [c])) cs.
Lemma run_to A q q' cs w rest : after_one A q q' cs = true -> w <> [] -> (forall c, In c w -> In c cs) -> Suf A q' rest -> Suf A q (w ++ rest).
Proof.
  intros H Hw Hc Hr. unfold after_one in H. rewrite forallb_forall in H. destruct w as [|c w]; [congruence|].
  assert (L : forall v, (forall c, In c v -> In c cs) -> Suf A q' (v ++ rest)).
  { induction v as [|x v IH]; intros Hv; [exact Hr|]. specialize (H x (Hv x (or_introl eq_refl))). apply andb_prop in H as [_ H]. apply (walk_to A q' q' [x] (v ++ rest) H). apply IH. intros y Hy. apply Hv. right. exact Hy. }
  specialize (H c (Hc c (or_introl eq_refl))). apply andb_prop in H as [H _]. apply (walk_to A q q' [c] (w ++ rest) H). apply L. intros y Hy. apply Hc. right. exact Hy.
Qed.
Lemma number_chars n : footnote_number n -> n <> [] /\ forall c, In c n -> In c digit_chars.
Proof. intros [H1 H2]. split; [exact H1|]. intros c Hc. apply digit_in, H2, Hc. Qed.

(** ** Lines *)
Definition after_state (plain : bool) : nat := if plain then 105%nat else 103%nat.
Definition leads (A : auto) (plain : bool) (w : str) : Prop := forall f rest, In f fbefore -> Suf A (after_state plain) rest -> Suf A f (w ++ rest).
Fixpoint renders (A : auto) (l : list reference) (y : str) : Prop :=
  match l with
  | [] => y = []
  | (n, plain, t) :: l' => exists w y', y = w ++ t ++ y' /\ leads A plain w /\ renders A l' y'
  end.
Lemma finals_last (plain : bool) : incl (au_final (after_reference plain true)) fends.
Proof. intros x Hx. assert (forallb (fun x => mem x fends) (au_final (after_reference plain true)) = true) as H by (destruct plain; vm_compute; reflexivity). rewrite forallb_forall in H. apply mem_in, H, Hx. Qed.
Lemma finals_more (plain : bool) : incl (au_final (after_reference plain false)) fbefore.
Proof. intros x Hx. assert (forallb (fun x => mem x fbefore) (au_final (after_reference plain false)) = true) as H by (destruct plain; vm_compute; reflexivity). rewrite forallb_forall in H. apply mem_in, H, Hx. Qed.
Lemma firsts_last : incl (au_final (first_words true)) fends.
Proof. intros x Hx. assert (forallb (fun x => mem x fends) (au_final (first_words true)) = true) as H by (vm_compute; reflexivity). rewrite forallb_forall in H. apply mem_in, H, Hx. Qed.
Lemma firsts_more : incl (au_final (first_words false)) fbefore.
Proof. intros x Hx. assert (forallb (fun x => mem x fbefore) (au_final (first_words false)) = true) as H by (vm_compute; reflexivity). rewrite forallb_forall in H. apply mem_in, H, Hx. Qed.
Section Lines.
Variables (A : auto) (tail : str).
Hypothesis around : incl ftext (au_trans A).
Hypothesis ending : forall f, In f fends -> Suf A f tail.
Lemma around_first b : incl (au_trans (first_words b)) (au_trans A).
Proof. intros x Hx. apply around. exact Hx. Qed.
Lemma around_after p b : incl (au_trans (after_reference p b)) (au_trans A).
Proof. intros x Hx. apply around. exact Hx. Qed.
Lemma renders_rest l : forall y, proper_references l -> renders A l y -> forall f, In f (if none l then fends else fbefore) -> Suf A f (y ++ tail).
Proof.
  induction l as [|[[n plain] t] l IH]; intros y Hp Hy f Hf; cbn [renders none] in *; [subst; apply ending, Hf|].
  destruct Hp as (_ & Ht & Hp). destruct Hy as (w & y' & -> & Hw & Hy). rewrite <- !app_assoc. apply Hw; [exact Hf|].
  apply (tail_ok (after_reference plain (none l)) _ t Ht A (around_after _ _)). intros g Hg. apply IH; auto. destruct (none l); [eapply finals_last; exact Hg|eapply finals_more; exact Hg].
Qed.
Lemma renders_line t l y : accepts (first_words (none l)) t -> proper_references l -> renders A l y -> Suf A 0 (t ++ y ++ tail).
Proof.
  intros Ht Hp Hy. apply (tail_ok (first_words (none l)) _ t Ht A (around_first _)). intros g Hg. apply (renders_rest l); auto. destruct (none l); [apply firsts_last, Hg|apply firsts_more, Hg].
Qed.
End Lines.
(** The source. *)
Lemma source_renders l : proper_references l -> renders fsource_a l (flat_map reference_source l).
Proof.
  induction l as [|[[n plain] t] l IH]; intros H; [reflexivity|]. destruct H as (Hn & Ht & Hl). exists (91 :: n ++ bang plain ++ [93]), (flat_map reference_source l). split; [|split; [|auto]].
  - cbn [flat_map]. unfold reference_source at 1. change (u "[") with [91]. change (u "]") with [93]. change (u "!") with [33]. unfold bang. destruct plain; cbn [app]; rewrite <- !app_assoc; reflexivity.
  - intros f rest Hf Hr. assert (forallb (fun f => mem 100 (walk fsource_a [f] [91])) fbefore = true) as E by (vm_compute; reflexivity). rewrite forallb_forall in E.
    replace ((91 :: n ++ bang plain ++ [93]) ++ rest) with ([91] ++ n ++ bang plain ++ [93] ++ rest) by (cbn [app]; rewrite <- !app_assoc; reflexivity). apply (walk_to fsource_a f 100 [91]); [apply E, Hf|]. destruct (number_chars n Hn) as [N1 N2].
    apply (run_to fsource_a 100 101 digit_chars); [vm_compute; reflexivity|exact N1|exact N2|]. destruct plain; cbn [bang].
    + apply (walk_to fsource_a 101 105 [33; 93]); [vm_compute; reflexivity|exact Hr]. + apply (walk_to fsource_a 101 103 [93]); [vm_compute; reflexivity|exact Hr].
Qed.
Lemma line_source t l : proper_passage (Line t l) -> accepts fsource_a (passage_source (Line t l)).
Proof.
  intros [H1 H2]. unfold accepts. cbn [passage_source]. rewrite <- (app_nil_r (flat_map _ _)). apply renders_line with (l := l); auto.
  - intros x Hx. change (au_trans fsource_a) with (ftext ++ map (fun q => (q, ch 91, 100%nat)) fbefore ++ [(100, digit, 101); (101, digit, 101); (101, ch 33, 102); (101, ch 93, 103); (102, ch 93, 105)]%nat). apply in_or_app. left. exact Hx.
  - intros f Hf. constructor. exact Hf.
  - apply source_renders, H2.
Qed.
(** The result. *)
Section Sup.
Variables (T : textile) (A : auto).
Notation prefix := (t_link_prefix T).
Hypothesis prefix_fine : prefix_ok prefix.
Definition sup_walks : bool :=
  forallb (fun f => mem 421 (walk A [f] (u "<sup class=""footnote"""))) fbefore && mem 430 (walk A [421%nat] [62]) && mem 427 (walk A [421%nat] (u " id="""))
  && after_one A 427 428 plain_chars && mem 430 (walk A [428%nat] (u """>")) && after_one A 430 431 digit_chars && mem 450 (walk A [430%nat] (u "<a href=""#"))
  && after_one A 450 451 plain_chars && mem 453 (walk A [451%nat] (u """>")) && after_one A 453 454 digit_chars && mem 103 (walk A [454%nat] (u "</a></sup>")) && mem 105 (walk A [431%nat] (u "</sup>")).
Hypothesis walks : sup_walks = true.
Lemma ref_leads n plain c : footnote_number n -> leads A plain (fst (reference_html prefix (n, plain, []) c)).
Proof.
  intros Hn f rest Hf Hr. pose proof walks as W. unfold sup_walks in W. do 11 (apply andb_prop in W; destruct W as [W ?W]).
  destruct (number_chars n Hn) as [N1 N2].
  assert (Q : forall i, Suf A 430 ((if plain then n else link_to (u "fn" ++ name prefix i) n) ++ u "</sup>" ++ rest)).
  { intros i. destruct plain.
    - eapply run_to; [eassumption|exact N1|exact N2|]. eapply walk_to; [eassumption|exact Hr].
    - unfold link_to. rewrite <- !app_assoc. eapply walk_to; [eassumption|]. rewrite (app_assoc (u "fn")). eapply run_to; [eassumption|discriminate|intros x Hx; eapply (fn_plain T); [|left; reflexivity|exact Hx]; exact prefix_fine|].
      eapply walk_to; [eassumption|]. eapply run_to; [eassumption|exact N1|exact N2|]. rewrite app_assoc. eapply walk_to; [|exact Hr]. assumption. }
  unfold reference_html. destruct (known n (fst c)) as [i|]; cbn [fst]; rewrite app_nil_r, <- !app_assoc.
  - change (u "<sup class=""footnote"">") with (u "<sup class=""footnote""" ++ [62]). rewrite <- app_assoc. rewrite forallb_forall in W. eapply walk_to; [apply W, Hf|]. eapply walk_to; [eassumption|]. apply Q.
  - change (u "<sup class=""footnote"" id=""fnrev") with (u "<sup class=""footnote""" ++ u " id=""" ++ u "fnrev"). rewrite <- !app_assoc. rewrite forallb_forall in W. eapply walk_to; [apply W, Hf|]. eapply walk_to; [eassumption|].
    rewrite (app_assoc (u "fnrev")). eapply run_to; [eassumption|discriminate|intros x Hx; eapply (fn_plain T); [|right; left; reflexivity|exact Hx]; exact prefix_fine|]. eapply walk_to; [eassumption|]. apply Q.
Qed.
Lemma html_renders l : proper_references l -> forall c, renders A l (fst (references_html prefix l c)).
Proof.
  induction l as [|[[n plain] t] l IH]; intros H c; [reflexivity|]. destruct H as (Hn & Ht & Hl). set (c1 := snd (reference_html prefix (n, plain, []) c)).
  assert (E : fst (references_html prefix ((n, plain, t) :: l) c) = fst (reference_html prefix (n, plain, []) c) ++ t ++ fst (references_html prefix l c1)).
  { change (references_html prefix ((n, plain, t) :: l) c) with (let (x, c1) := reference_html prefix (n, plain, [] ++ t) c in let (y, c2) := references_html prefix l c1 in (x ++ y, c2)).
    rewrite html_shift. fold c1. destruct (references_html prefix l c1) as [y c2]. cbn [fst]. rewrite <- app_assoc. reflexivity. }
  cbn [renders]. exists (fst (reference_html prefix (n, plain, []) c)), (fst (references_html prefix l c1)). split; [exact E|]. split; [apply ref_leads, Hn|apply IH, Hl].
Qed.
End Sup.
Lemma result_walks : sup_walks fresult_a = true /\ sup_walks fpage_a = true.
Proof. split; vm_compute; reflexivity. Qed.
Lemma around_result : incl ftext (au_trans fresult_a).
Proof. intros x Hx. change (au_trans fresult_a) with (ftext ++ fsup). apply in_or_app. left. exact Hx. Qed.
Lemma around_page : incl ftext (au_trans fpage_a).
Proof. intros x Hx. change (au_trans fpage_a) with (ftext ++ skipn (List.length ftext) (au_trans fpage_a)). apply in_or_app. left. exact Hx. Qed.
Lemma item_page : incl (au_trans item_text) (au_trans fpage_a).
Proof. intros x Hx. apply around_page. change ftext with (au_trans item_text ++ skipn (List.length (au_trans item_text)) ftext). apply in_or_app. left. exact Hx. Qed.
(** Two newlines behind. *)
Lemma tailed_both A t : accepts A t -> accepts (tailed_of A) t /\ accepts (tailed_of A) (t ++ nl ++ nl).
Proof.
  intros H. split.
  - unfold accepts. rewrite <- (app_nil_r t). apply (tail_ok A _ _ H); [intros x Hx; cbn [tailed_of au_trans]; apply in_or_app; auto|]. intros f Hf. constructor. right. exact Hf.
  - apply (tail_ok A _ _ H); [intros x Hx; cbn [tailed_of au_trans]; apply in_or_app; auto|]. intros f Hf. eapply SufCons with (l := newline) (q' := 200%nat); [|reflexivity|].
    + cbn [tailed_of au_trans]. apply in_or_app. right. apply in_or_app. left. apply in_map_iff. exists f. auto.
    + eapply SufCons with (l := newline) (q' := 201%nat); [|reflexivity|constructor; left; reflexivity]. cbn [tailed_of au_trans]. apply in_or_app. right. apply in_or_app. right. left. reflexivity.
Qed.
(** No brackets in the words, and no blank before a reference. *)
Definition word_re : list re := [RCls (ch 91); RSeq (RCls space_c) (RAssert EOT)].
Lemma words_never : forallb (never (first_words false)) word_re && forallb (never (after_reference true false)) word_re && forallb (never (after_reference false false)) word_re
  && never (first_words true) (RCls (ch 91)) && never (after_reference true true) (RCls (ch 91)) && never (after_reference false true) (RCls (ch 91)) = true.
Proof. vm_compute. reflexivity. Qed.
Lemma solid_space x : in_cls space_c x = false -> in_cls solid_c x = true.
Proof. unfold in_cls, space_c, solid_c. cbn [c_neg c_items existsb in_item]. destruct (has_prop PSpace x); [discriminate|reflexivity]. Qed.
Lemma last_solid t : t <> [] -> no_match (RSeq (RCls space_c) (RAssert EOT)) t -> exists x y, rev t = x :: y /\ in_cls solid_c x = true.
Proof.
  intros Hn H. destruct (rev t) as [|x y] eqn:E; [exfalso; apply Hn; rewrite <- (rev_involutive t), E; reflexivity|]. exists x, y. split; [reflexivity|]. apply solid_space. destruct (in_cls space_c x) eqn:Ex; [|reflexivity]. exfalso.
  assert (t = rev y ++ [x]) as Et by (rewrite <- (rev_involutive t), E; reflexivity). specialize (H (rev y) [x] Et). unfold match_at in H. rewrite m_seq, m_cls, Ex, m_assert in H. discriminate.
Qed.
Lemma refs_spaced l : proper_references l -> spaced_out l.
Proof.
  pose proof words_never as W. do 5 (apply andb_prop in W; destruct W as [W ?W]). rewrite forallb_forall in W, W3, W4.
  induction l as [|[[n plain] t] l IH]; intros H; [exact I|]. destruct H as (Hn & Ht & Hl). cbn [spaced_out]. split; [exact Hn|]. split; [|split; [|auto]].
  - apply no_match_ch. destruct (none l), plain; [exact (never_ok _ _ _ Ht W1)|exact (never_ok _ _ _ Ht W0)|refine (never_ok _ _ _ Ht (W4 _ _))|refine (never_ok _ _ _ Ht (W3 _ _))]; left; reflexivity.
  - destruct l as [|r l]; [left; reflexivity|]. right. cbn [none] in Ht. destruct t as [|c t]; [exists 93, []; split; [reflexivity|vm_compute; reflexivity]|].
    destruct (last_solid (c :: t)) as (x & y & E & Hx); [discriminate|destruct plain; [refine (never_ok _ _ _ Ht (W4 _ _))|refine (never_ok _ _ _ Ht (W3 _ _))]; right; left; reflexivity|]. exists x, (y ++ [93]). split; [rewrite E; reflexivity|exact Hx].
Qed.
Lemma first_spaced t l : accepts (first_words (none l)) t -> ~ In 91 t /\ edge l (rev t).
Proof.
  pose proof words_never as W. do 5 (apply andb_prop in W; destruct W as [W ?W]). rewrite forallb_forall in W.
  intros Ht. split.
  - apply no_match_ch. destruct (none l); [exact (never_ok _ _ _ Ht W2)|refine (never_ok _ _ _ Ht (W _ _)); left; reflexivity].
  - destruct l as [|r l]; [left; reflexivity|]. right. cbn [none] in Ht. apply last_solid; [|refine (never_ok _ _ _ Ht (W _ _)); right; left; reflexivity].
    intros ->. inversion Ht as [q Hf|]. cbn in Hf. intuition discriminate.
Qed.
Lemma item_ends t : accepts item_text t -> ~ In 91 t.
Proof. intros H. apply no_match_ch. eapply never_ok; [exact H|]. vm_compute. reflexivity. Qed.

(** ** Footnotes *)
Lemma footnote_source n back t : proper_passage (Footnote n back t) -> accepts fnsrc_a (passage_source (Footnote n back t)).
Proof.
  intros [Hn Ht]. destruct (number_chars n Hn) as [N1 N2]. unfold accepts. cbn [passage_source]. apply (walk_to fnsrc_a 700 705 (u "fn")); [vm_compute; reflexivity|].
  apply (run_to fnsrc_a 705 706 digit_chars); [vm_compute; reflexivity|exact N1|exact N2|].
  assert (Suf fnsrc_a 1 t) as S1. { rewrite <- (app_nil_r t). apply (tail_ok item_text _ t Ht); [|intros f Hf; constructor; exact Hf]. intros x Hx. change (au_trans fnsrc_a) with (au_trans item_text ++ skipn (List.length (au_trans item_text)) (au_trans fnsrc_a)). apply in_or_app. left. exact Hx. }
  destruct back; [rewrite app_assoc; apply (walk_to fnsrc_a 706 1 (u "^" ++ u ". "))|apply (walk_to fnsrc_a 706 1 (u ". "))]; auto; vm_compute; reflexivity.
Qed.
Section Note.
Variable T : textile.
Notation prefix := (t_link_prefix T).
Hypothesis prefix_fine : prefix_ok prefix.
Definition note_text (n : str) (back : bool) (i : N) (t : str) : str := u "<sup>" ++ (if back then link_to (u "fnrev" ++ name prefix i) n else n) ++ u "</sup> " ++ t.
Definition note_walks (A : auto) : bool :=
  mem 510 (walk A [500%nat] (u "<sup>")) && after_one A 510 511 digit_chars && mem 1 (walk A [511%nat] (u "</sup> ")) && mem 550 (walk A [510%nat] (u "<a href=""#"))
  && after_one A 550 551 plain_chars && mem 553 (walk A [551%nat] (u """>")) && after_one A 553 554 digit_chars && mem 1 (walk A [554%nat] (u "</a></sup> ")).
Lemma note_walk : note_walks fnote_a = true /\ note_walks fpage_a = true.
Proof. split; vm_compute; reflexivity. Qed.
Lemma note_suf A n back i t rest : note_walks A = true -> incl (au_trans item_text) (au_trans A) -> footnote_number n -> accepts item_text t -> (forall f, In f (au_final item_text) -> Suf A f rest) ->
  Suf A 500 (note_text n back i t ++ rest).
Proof.
  intros W Hi Hn Ht Hr. unfold note_walks in W. do 7 (apply andb_prop in W; destruct W as [W ?W]). destruct (number_chars n Hn) as [N1 N2]. unfold note_text. rewrite <- !app_assoc.
  assert (Suf A 1 (t ++ rest)) as S1 by (apply (tail_ok item_text _ t Ht A Hi); exact Hr).
  eapply walk_to; [exact W|]. destruct back.
  - unfold link_to. rewrite <- !app_assoc. eapply walk_to; [exact W4|]. rewrite (app_assoc (u "fnrev")). eapply run_to; [exact W3|discriminate|intros x Hx; eapply (fn_plain T); [|right; left; reflexivity|exact Hx]; exact prefix_fine|].
    eapply walk_to; [exact W2|]. eapply run_to; [exact W1|exact N1|exact N2|]. rewrite (app_assoc (u "</a>")). eapply walk_to; [|exact S1]. exact W0.
  - eapply run_to; [exact W6|exact N1|exact N2|]. eapply walk_to; [exact W5|exact S1].
Qed.
Lemma note_accepts n back i t : proper_passage (Footnote n back t) -> accepts fnote_a (note_text n back i t).
Proof.
  intros [Hn Ht]. unfold accepts. rewrite <- (app_nil_r (note_text _ _ _ _)). apply note_suf; [exact (proj1 note_walk)| |exact Hn|exact Ht|].
  - intros x Hx. change (au_trans fnote_a) with (au_trans item_text ++ fnote). apply in_or_app. left. exact Hx.
  - intros f Hf. constructor. exact Hf.
Qed.
Lemma line_result t l c : proper_passage (Line t l) -> accepts fresult_a (t ++ fst (references_html prefix l c)).
Proof.
  intros [H1 H2]. unfold accepts. rewrite <- (app_nil_r (fst (references_html prefix l c))). apply renders_line with (l := l); auto; [exact around_result|intros f Hf; constructor; exact Hf|]. apply html_renders; [exact prefix_fine|exact (proj1 result_walks)|exact H2].
Qed.
(** The page. *)
Lemma passage_page p c rest : proper_passage p -> Suf fpage_a 620 rest -> Suf fpage_a 600 (fst (passage_html prefix p c) ++ rest).
Proof.
  intros Hp Hr. assert (E : forall f, In f fends -> Suf fpage_a f (u "</p>" ++ rest)).
  { intros f Hf. assert (forallb (fun f => mem 620 (walk fpage_a [f] (u "</p>"))) fends = true) as E by (vm_compute; reflexivity). rewrite forallb_forall in E. eapply walk_to; [apply E, Hf|exact Hr]. }
  destruct p as [t l|n back t]; cbn [passage_html].
  - destruct Hp as [H1 H2]. destruct (references_html prefix l c) as [x c1] eqn:Ex. cbn [fst]. replace (element (u "p") (t ++ x) ++ rest) with (u "<p>" ++ t ++ x ++ u "</p>" ++ rest).
    2:{ unfold element. change (u "<p>") with (u "<" ++ u "p" ++ u ">"). change (u "</p>") with (u "</" ++ u "p" ++ u ">"). rewrite <- !app_assoc. reflexivity. }
    apply (walk_to fpage_a 600 0 (u "<p>")); [vm_compute; reflexivity|]. apply renders_line with (l := l); auto; [exact around_page|]. pose proof (html_renders T fpage_a prefix_fine (proj2 result_walks) l H2 c) as R. rewrite Ex in R. exact R.
  - set (i := match known n (fst c) with Some i => i | None => snd c + 1 end).
    replace (fst _ ++ rest) with (u "<p class=""footnote"" id=""" ++ (u "fn" ++ name prefix i) ++ u """>" ++ note_text n back i t ++ u "</p>" ++ rest).
    2:{ unfold i, note_text. destruct (known n (fst c)); cbn [fst]; change (u "<p class=""footnote"" id=""fn") with (u "<p class=""footnote"" id=""" ++ u "fn"); change (u """><sup>") with (u """>" ++ u "<sup>"); rewrite <- !app_assoc; reflexivity. }
    apply (walk_to fpage_a 600 660); [vm_compute; reflexivity|]. apply (run_to fpage_a 660 661 plain_chars); [vm_compute; reflexivity|discriminate|intros x Hx; eapply (fn_plain T); [|left; reflexivity|exact Hx]; exact prefix_fine|].
    apply (walk_to fpage_a 661 500); [vm_compute; reflexivity|]. destruct Hp as [Hn Ht]. apply note_suf; [exact (proj2 note_walk)|exact item_page|exact Hn|exact Ht|]. intros f Hf. apply E. apply in_or_app. left. exact Hf.
Qed.
Lemma passages_page l : l <> [] -> Forall proper_passage l -> forall c, accepts fpage_a (sections (passages_html prefix l c)) /\ (forall x, In x (passages_html prefix l c) -> exists v d, x = v ++ [d] /\ d <> 10).
Proof.
  unfold accepts. change (au_start fpage_a) with 600%nat. induction l as [|p l IH]; intros Hn H c; [congruence|]. inversion H as [|? ? Hp Hl]; subst. cbn [passages_html].
  pose proof (passage_page p c) as P. assert (Lx : exists v d, fst (passage_html prefix p c) = v ++ [d] /\ d <> 10).
  { destruct p as [t k|n back t]; cbn [passage_html].
    - destruct (references_html prefix k c) as [x c1]. cbn [fst]. exists (u "<p>" ++ (t ++ x) ++ u "</p"), 62. split; [|discriminate]. unfold element. change (u "<p>") with (u "<" ++ u "p" ++ u ">"). change (u "</p") with (u "</" ++ u "p"). change (u ">") with [62]. rewrite <- !app_assoc. reflexivity.
    - match goal with |- exists v d, fst ?z = _ /\ _ => assert (exists y, fst z = y ++ u "</p>") as (y & ->) end.
      { destruct (known n (fst c)); cbn [fst]; rewrite !app_assoc; eexists; reflexivity. }
      exists (y ++ u "</p"), 62. split; [rewrite <- app_assoc; reflexivity|discriminate]. }
  destruct (passage_html prefix p c) as [x c1]. cbn [fst] in *. destruct l as [|q l].
  - cbn [sections passages_html]. split; [|intros z [<-|[]]; exact Lx]. rewrite <- (app_nil_r x). apply P; auto. constructor. left. reflexivity.
  - destruct (IH ltac:(discriminate) Hl c1) as [A B]. split; [|intros z [<-|Hz]; auto].
    assert (passages_html prefix (q :: l) c1 <> []) as Hx by (cbn [passages_html]; destruct (passage_html prefix q c1); discriminate).
    rewrite sections_cons by exact Hx. apply P; auto. apply (walk_to fpage_a 620 600 [10; 10]); [vm_compute; reflexivity|exact A].
Qed.
End Note.
Lemma fnote_lead : never fnote_a uid_lead = true.
Proof. vm_compute. reflexivity. Qed.
