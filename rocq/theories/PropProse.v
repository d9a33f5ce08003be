(** Property C89: documents of prose. *)
From Verif Require Import Str RegexAuto ModelBase ModelParser SpecPlain SpecDoc SpecGlyphs SpecGlyphRules SpecProse ProofDocument ProofSignedTop ProofProse Samples.

(** ** C89: a document of prose becomes its paragraphs, each as the typographic rules set its text. *)
Theorem C89_prose : forall W T fuel ps, ready T -> caps_set T -> (1 < fuel)%nat -> (forall p, In p ps -> prose_text p) ->
  exists s, parse W T fuel [] (sections ps) = Ret (sections (map (prose_html T) ps)) s.
Proof. exact prose_pages. Qed.
Print Assumptions C89_prose.
Definition C89_paras : list str :=
  [u "Rock'n'roll, the '60s & the ""wild"" ones... it's 5x4 -- or 'so' - said AT&T," ++ [10] ++ u """why not?"" it's #1, $5.";
   u """Tom & Jerry's"" well-known 3 x 4' show!"].
Example C89_example : ready T0 /\ caps_set T0 /\ (forall p, In p C89_paras -> prose_text p) /\
  html_of T0 (sections C89_paras) =
  Some (sections [u "<p>Rock&#8217;n&#8216;roll, the &#8217;60s &amp; the &#8220;wild&#8221; ones&#8230; it&#8217;s 5&#215;4 &#8212; or &#8216;so&#8217; &#8211; said AT&amp;T,<br>" ++ [10] ++ u "&#8220;why not?&#8221; it&#8217;s #1, $5.</p>";
    u "<p>&#8220;Tom &amp; Jerry&#8217;s&#8221; well-known 3 &#215; 4&#8217; show!</p>"]).
Proof.
  split; [exact plain_ready|]. split; [reflexivity|]. split.
  - intros p Hp. repeat (destruct Hp as [<-|Hp]); [..|destruct Hp]; (split; [apply runs_accepts|apply few_check]; vm_compute; reflexivity).
  - vm_compute. reflexivity.
Qed.
(** Of two apostrophes with one letter between, the second becomes an opening quote; "&T;" counts as a
    character reference, unless in restricted mode. *)
Example C89_rock : prose_set true false (u "Rock'n'roll") = u "Rock&#8217;n&#8216;roll" /\ prose_set true false (u "AT&T; it") = u "AT&T; it" /\
  prose_set true true (u "AT&T; it") = u "AT&amp;T; it".
Proof. split; [|split]; vm_compute; reflexivity. Qed.
(** As the theorem tells, also in restricted mode. *)
Example C89_agrees : html_of T0 (sections C89_paras) = Some (sections (map (prose_html T0) C89_paras)) /\
  html_of (set_restricted true T0) (sections C89_paras) = Some (sections (map (prose_html (set_restricted true T0)) C89_paras)).
Proof. split; vm_compute; reflexivity. Qed.
