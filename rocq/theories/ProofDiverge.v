(** Documents on which [parse] never returns. *)
From Coq Require Import List NArith ZArith Bool Lia.
Import ListNotations.
From Verif Require Import Str Unicode Regex RegexParse RegexSnips RegexTheory RegexGroups ProofRegex ModelBase ModelHtml ModelUrl ModelAttrs ModelInline ModelParser
  Lib Logic SpecRegex SpecLinks Samples ProofSpan ProofLinks ProofDoc.
Local Open Scope N_scope.
#[local] Arguments u : simpl never.

Ltac dstep := eapply bind_step; [vm_compute; reflexivity|].
Definition inches : str := u "It is 5"" by 6"":x".
Lemma inches_diverge W fuel : parse W T0 fuel [] inches = Diverge.
Proof.
  unfold parse, parse_m. replace (is_empty (trim inches)) with false by (vm_compute; reflexivity).
  apply bind_diverge. change (t_block_tags T0) with true. cbv iota. apply bind_diverge. unfold block. dstep.
  apply bind_diverge. cbn [foldM]. apply bind_diverge.
  rewrite anon_step; [|reflexivity|vm_compute; reflexivity..|apply no_match_of; vm_compute; reflexivity].
  apply bind_diverge. destruct fuel as [|fuel]; [reflexivity|]. unfold graf. cbn [graf_n]. unfold graf_body. do 5 dstep. apply bind_diverge.
  unfold links. apply bind_diverge. unfold mark_start_of_links. dstep. apply bind_diverge. 
  cbn [removelast mapM]. apply bind_diverge.
  apply (marking_diverges T0 (u "It is 5") (u " by 6")); vm_compute; try (intros H; repeat destruct H as [H|H]; discriminate || contradiction); try discriminate; reflexivity.
Qed.

(** ** Concrete links *)
(** A world whose URL library knows two schemes. *)
Definition W1 : world :=
  mk_world (fun s => if starts_with (u "http://") s then Some (u "http", s)
                     else if starts_with (u "javascript:") s then Some (u "javascript", s) else None)
           (fun s => Some s) (fun _ => false) (fun _ _ _ => None) (fun _ => None).
Definition html_in (W : world) (T : textile) (text : str) : option str :=
  match parse W T 60 [] text with Ret h _ => Some h | _ => None end.
Lemma marking_near T fuel a c b s : (0 < fuel)%nat -> ~ In 34 (c :: b) -> is_ws c = false ->
  mark_slice T fuel (a ++ 34 :: c :: b) s = Ret (a ++ t_uid T ++ u "linkStartMarker:""" ++ c :: b) s.
Proof. intros Hf H Hc. apply marking_nearest; auto; [discriminate|apply delta_first; auto]. Qed.
Lemma link_rel W T x h s out s' rel : uid_plain (t_uid T) = true -> link_re (t_uid T) = Some x ->
  hit_of (rx_re x) h -> f_link W T h s = Ret out s' -> t_rel T = Some rel ->
  s' = s \/
  exists pre' token back attrs text, out = pre' ++ token ++ back /\ assoc token (ps_shelf s') = Some (a_tag attrs text) /\
    assoc (u "rel") attrs = Some rel.
Proof.
  intros H1 H2 H3 H4 H5. destruct (link_outcome W T x h s out s' H1 H2 H3 H4) as (pre1 & inner1 & url1 & E & Hp & Hu & O).
  destruct O as [Hi Ho Hs|kept back pre' full Hi Hc Hf Hs Ho Hss|kept back pre' full token Hi Hc Hf Hs Ht Hl Ho].
  - left. auto.
  - left. auto.
  - right. destruct Hl as (i & attrs & text & Ha & _ & _ & Hr). exists pre', token, back, attrs, text. auto.
Qed.
