(** Theorems about markup that is switched off. *)
From Coq Require Import Lia ZArith.
From Verif Require Import Str Regex RegexParse RegexSnips RegexAuto ModelBase ModelParser SpecPlain SpecDoc SpecText ProofDocument ProofText Samples.

(** ** C45: lite mode *)
(** Lists, headings, preformatted blocks, raw blocks and rows of tables are text of a paragraph. *)
Theorem C45_text_partial : forall W T fuel t, ready T -> t_lite T = true -> (0 < fuel)%nat -> accepts lite_text t ->
  exists s, parse W T fuel [] t = Ret (element (u "p") (breaks (line_break T) t)) s.
Proof. exact lite_paragraphs. Qed.
Print Assumptions C45_text_partial.
(** No text has a signature other than these. *)
Theorem C45_signatures : forall text m, captures (rx_re TEXTILE_LIGHT_TAG_RE) text = Some m -> In (cap_or 1 m) [u "bq"; u "bc"; u "p"].
Proof. exact lite_signature. Qed.
Print Assumptions C45_signatures.
(** But code blocks are among them. *)
Theorem C45_refuted : html_of (set_lite true T0) (u "bc. a") = Some (u "<pre><code>a</code></pre>").
Proof. vm_compute. reflexivity. Qed.
Print Assumptions C45_refuted.
Example C45_example : ready (set_lite true T0) /\ Forall (accepts lite_text) [u "* one" ++ [10] ++ u "** two" ++ [10] ++ u "# three four"; u "h1. Title"; u "pre. a b"; u "|a|b|"] /\
  html_of (set_lite true T0) (u "* one" ++ [10] ++ u "** two" ++ [10] ++ u "# three four") = Some (u "<p>* one<br>" ++ [10] ++ u "** two<br>" ++ [10] ++ u "# three four</p>") /\
  html_of T0 (u "h1. Title") = Some (u "<h1>Title</h1>") /\ html_of (set_lite true T0) (u "h1. Title") = Some (u "<p>h1. Title</p>") /\
  captures (rx_re TEXTILE_LIGHT_TAG_RE) (u "bq(c). a") <> None /\ captures (rx_re TEXTILE_LIGHT_TAG_RE) (u "h1. a") = None.
Proof.
  split; [|split; [|split; [|split; [|split; [|split]]]]]; [| |vm_compute; reflexivity..|vm_compute; discriminate|vm_compute; reflexivity].
  - split; [|split; reflexivity]. exists (u "abc"). split; [reflexivity|]. intros c [<-|[<-|[<-|[]]]]; vm_compute; tauto.
  - repeat (apply Forall_cons; [apply runs_accepts; vm_compute; reflexivity|]). apply Forall_nil.
Qed.

(** ** C46: images *)
(** Nothing that only images need has an effect: neither the network nor their settings. *)
Theorem C46_irrelevant : forall W T g r i sizes align fuel c t, t_noimage T = true ->
  parse (other_images W g r i) (image_settings sizes align T) fuel c t = parse W T fuel c t.
Proof. exact images_off. Qed.
Print Assumptions C46_irrelevant.
(** No image is requested. *)
Theorem C46_requests : forall W T fuel text html s, t_noimage T = true -> parse W T fuel [] text = Ret html s -> ps_http s = [].
Proof. exact images_off_http. Qed.
Print Assumptions C46_requests.
(** Pictures are text. *)
Theorem C46_text_partial : forall W T fuel t, ready T -> t_noimage T = true -> (0 < fuel)%nat -> accepts picture_text t ->
  exists s, parse W T fuel [] t = Ret (element (u "p") (breaks (line_break T) t)) s.
Proof. exact picture_paragraphs. Qed.
Print Assumptions C46_text_partial.
Example C46_example : let T := set_images false T0 in
  ready T /\ t_noimage T = true /\ Forall (accepts picture_text) [u "See !http://a.com/b.png!:http://c/d and !e.gif!"] /\
  html_of T (u "See !http://a.com/b.png!:http://c/d and !e.gif!") = Some (u "<p>See !http://a.com/b.png!:http://c/d and !e.gif!</p>") /\
  html_of T0 (u "See !e.gif!") = Some (u "<p>See <img alt="""" src=""e.gif"" /></p>").
Proof.
  cbv zeta. split; [|split; [|split; [|split]]]; [|reflexivity| |vm_compute; reflexivity..].
  - split; [|split; reflexivity]. exists (u "abc"). split; [reflexivity|]. intros c [<-|[<-|[<-|[]]]]; vm_compute; tauto.
  - repeat (apply Forall_cons; [apply runs_accepts; vm_compute; reflexivity|]). apply Forall_nil.
Qed.
