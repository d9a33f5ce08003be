(** Theorems about restricted mode and raw HTML. *)
From Coq Require Import Lia ZArith.
From Verif Require Import Str Regex RegexAuto ModelBase ModelHtml ModelAttrs ModelParser SpecHtml SpecPlain SpecDoc SpecSafe ProofDocument ProofSafe Samples.

(** ** C20: restricted mode lets no raw HTML through *)
(** After the first step no document has a [<] or [>]. *)
Theorem C20_prepared_partial : forall T text, simple_uid (t_uid T) -> t_restricted T = true -> ~ In 60 (prepare T text) /\ ~ In 62 (prepare T text).
Proof. exact prepared_safe. Qed.
Print Assumptions C20_prepared_partial.
(** Documents of paragraphs, headings and of code, preformatted and raw blocks with any characters. *)
Theorem C20_documents_partial : forall W T fuel bs, ready T -> t_restricted T = true -> (1 < fuel)%nat -> (forall b, In b bs -> proper T b) ->
  exists html s, parse W T fuel [] (sections (map source bs)) = Ret html s /\ made_of own_tags html.
Proof. exact documents_safe. Qed.
Print Assumptions C20_documents_partial.
(** The text of a link that shows its URL is not escaped. *)
Theorem C20_refuted : html_of (set_restricted true T0) (u """$"":/<img/src=x/onerror=alert(1)>y") =
  Some (u "<p><a href=""/&lt;img/src=x/onerror=alert(1)&gt;y"">/<img/src=x/onerror=alert(1)>y</a></p>").
Proof. vm_compute. reflexivity. Qed.
Print Assumptions C20_refuted.
Example C20_example : let T := set_restricted true T0 in ready T /\ t_restricted T = true /\ Forall (proper T) [Para (u "One two"); Raw (u "<b>"); Code (u "<i>")] /\
  html_of T (sections (map source [Para (u "One two"); Raw (u "<b>"); Code (u "<i>")])) = Some (u "<p>One two</p>" ++ [10; 10] ++ u "&lt;b&gt;" ++ [10; 10] ++ u "<pre><code>&amp;lt;i&amp;gt;</code></pre>") /\
  prepare T (u "<b> & ""c"":/<d>") = u "&lt;b&gt; &amp; ""c"":/&lt;d&gt;" /\ ~ made_of own_tags (u "<img>").
Proof.
  cbv zeta. split; [|split; [|split; [|split; [|split]]]]; [|reflexivity| |vm_compute; reflexivity..|].
  - split; [|split; reflexivity]. exists (u "abc"). split; [reflexivity|]. intros c [<-|[<-|[<-|[]]]]; vm_compute; tauto.
  - exact restricted_proper.
  - exact img_not_own.
Qed.

(** ** C22: documents cannot inject attributes *)
(** Tags with attributes from a specification in the document: a reader finds these names only. *)
Theorem C22_specifications_partial : forall text el inc s a s', block_attributes_parse text el inc true s = Ret a s' ->
  exists l, attributes_of (join_html_attributes [] (ba_html_attrs a)) = Some l /\
    forall k v, In (k, v) l -> In k (map u ["colspan"; "lang"; "rowspan"; "span"; "style"; "width"]%string).
Proof. exact spec_attributes. Qed.
Print Assumptions C22_specifications_partial.
(** The title of a link is put into its quotes after quoting. *)
Theorem C22_refuted : html_of (set_restricted true T0) (u """a(b "" onmouseover=alert`1` c)"":http://x") =
  Some (u "<p><a href=""http://x"" title=""b "" onmouseover=alert`1` c"">a</a></p>").
Proof. vm_compute. reflexivity. Qed.
Print Assumptions C22_refuted.
Example C22_example : match block_attributes_parse (u "[a"" onclick=""x](b){c:d}") ElNone true true (new_state []) with
  | Ret a _ => attributes_of (join_html_attributes [] (ba_html_attrs a)) = Some [(u "lang", u "a"" onclick=""x")] | _ => False end.
Proof. vm_compute. reflexivity. Qed.
