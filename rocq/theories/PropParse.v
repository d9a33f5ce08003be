(** C03, C04, C05, C08, C09, C10: first and last steps of [parse]; the settings. *)
From Verif Require Import Str Unicode Regex ModelBase ModelInline ModelParser Samples SpecParse ProofRawBlocks ProofParse.

(** ** C03: blank documents are returned unchanged *)
Theorem C03_blank : forall W T fuel c text, blank text -> parse W T fuel c text = Ret text (new_state c).
Proof. exact parse_blank. Qed.
Print Assumptions C03_blank.
(** Any other document goes through the whole pipeline, whose last step is [finish]. *)
Theorem C03_otherwise : forall W T fuel c text html s, ~ blank text -> parse W T fuel c text = Ret html s ->
  exists t, html = finish T t.
Proof. exact parse_finish. Qed.
Print Assumptions C03_otherwise.
Example C03_example : blank [32; 10; 9; 8195; 12288; 13] /\ ~ blank [32; 8203].
Proof.
  split; [|intros H; inversion H as [|a0 l0 _ H1]; subst; inversion H1 as [|a1 l1 H2 _]; subst; unfold white_space in H2; lia].
  unfold blank, white_space. do 6 (constructor; [lia|]). constructor.
Qed.

(** ** C04: output never ends with a newline *)
Theorem C04_no_final_newline : forall W T fuel c text html s, ~ blank text -> parse W T fuel c text = Ret html s ->
  forall w, html <> w ++ [10].
Proof. exact not_newline. Qed.
Print Assumptions C04_no_final_newline.

(** ** C05: every break tag is followed by a newline, or ends the output *)
Theorem C05_breaks : forall W T fuel c text html s, ~ blank text -> parse W T fuel c text = Ret html s ->
  breaks_end_lines html.
Proof. exact parse_breaks. Qed.
Print Assumptions C05_breaks.
Example C04_C05_example : ~ blank (u "a" ++ nl ++ u "b <br /> c<br>" ++ nl ++ nl) /\
  html_of (set_html_kind XHTML T0) (u "a" ++ nl ++ u "b <br /> c<br>" ++ nl ++ nl) =
  Some (u "<p>a<br />" ++ nl ++ u "b <br />" ++ nl ++ u " c<br />" ++ nl ++ u "</p>").
Proof.
  split; [intros H; inversion H as [|? ? H1 _]; unfold white_space in H1; lia|]. vm_compute. reflexivity.
Qed.

(** ** C08: setters are independent *)
Theorem C08_own_setting : forall c T, read (kind c) (call c T) = meant c.
Proof. exact call_own. Qed.
Print Assumptions C08_own_setting.
Theorem C08_other_settings : forall c T k, k <> kind c -> read k (call c T) = read k T.
Proof. exact call_other. Qed.
Print Assumptions C08_other_settings.
Theorem C08_last_wins : forall cs T k, read k (calls cs T) =
  match find (fun c => Nat.eqb (kind c) k) (rev cs) with Some c => meant c | None => read k T end.
Proof. exact calls_last. Qed.
Print Assumptions C08_last_wins.
Theorem C08_commute : forall c c' T, kind c <> kind c' -> call c (call c' T) = call c' (call c T).
Proof. exact call_commute. Qed.
Print Assumptions C08_commute.
Theorem C08_override : forall c c' T, kind c = kind c' -> call c (call c' T) = call c T.
Proof. exact call_over. Qed.
Print Assumptions C08_override.
Example C08_example :
  let T := calls [SetImages false; SetRel (Some (u "nofollow")); SetImages true; SetLite true] T0 in
  (t_noimage T, t_rel T, t_lite T, t_restricted T) = (false, Some (u "nofollow"), true, false).
Proof. reflexivity. Qed.

(** ** C09: the align-class setting can be used.
    False: [set_align_class] consumes the parser and returns nothing, and no sequence
    of calls of the methods which return a parser changes the setting. *)
Theorem C09_align_class_refuted : forall id v, ~ exists cs, t_align_class (calls cs (default_textile id)) = Some v.
Proof. exact align_class_unusable. Qed.
Print Assumptions C09_align_class_refuted.
(** The behaviour documented for an unset value holds. *)
Theorem C09_align_class_unset_partial : forall id cs, use_align_class (calls cs (default_textile id)) =
  match t_html (calls cs (default_textile id)) with XHTML => false | HTML5 => true end.
Proof. exact align_class_by_kind. Qed.
Print Assumptions C09_align_class_unset_partial.

(** ** C10: the raw-blocks setting has its documented effect.
    False: the setting is never read. *)
Theorem C10_raw_blocks_refuted : forall W T fuel c text,
  parse W (set_raw_blocks true T) fuel c text = parse W (set_raw_blocks false T) fuel c text.
Proof. exact raw_blocks_same. Qed.
Print Assumptions C10_raw_blocks_refuted.
Example C10_example : html_of (set_raw_blocks true T0) (u "<foo>*a*</foo>") = html_of (set_raw_blocks false T0) (u "<foo>*a*</foo>").
Proof. vm_compute. reflexivity. Qed.
