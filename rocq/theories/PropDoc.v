(** Theorems about whole documents of plain blocks. *)
From Coq Require Import Lia.
From Verif Require Import Str Regex RegexAuto ModelBase ModelParser SpecPlain SpecDoc ProofDocument Samples.

(** ** C49: plain paragraphs *)
Theorem C49_paragraphs : forall W T fuel ts, ready T -> (1 < fuel)%nat -> (forall t, In t ts -> accepts paragraph t) ->
  exists s, parse W T fuel [] (sections ts) = Ret (sections (map (fun t => element (u "p") (breaks (line_break T) t)) ts)) s.
Proof. exact paragraphs. Qed.
Print Assumptions C49_paragraphs.
(** Paragraphs, headings and preformatted text in any order. *)
Theorem C49_documents : forall W T fuel bs, ready T -> (1 < fuel)%nat -> (forall b, In b bs -> proper T b) ->
  exists s, parse W T fuel [] (sections (map source bs)) = Ret (sections (map (block_html (line_break T)) (seen_blocks T bs))) s.
Proof. exact documents. Qed.
Print Assumptions C49_documents.
Example C49_example : ready T0 /\ Forall (accepts paragraph) [u "Hello, brave new world!"; u "Всё хорошо: 12 Rue d-Or." ++ [10] ++ u "ça va"] /\
  html_of T0 (sections [u "Hello, brave new world!"; u "Всё хорошо: 12 Rue d-Or." ++ [10] ++ u "ça va"]) =
  Some (u "<p>Hello, brave new world!</p>" ++ [10; 10] ++ u "<p>Всё хорошо: 12 Rue d-Or.<br>" ++ [10] ++ u "ça va</p>").
Proof.
  split; [|split].
  - split; [|split; reflexivity]. exists (u "abc"). split; [reflexivity|]. intros c [<-|[<-|[<-|[]]]]; vm_compute; tauto.
  - apply Forall_cons; [|apply Forall_cons; [|apply Forall_nil]]; apply runs_accepts; vm_compute; reflexivity.
  - vm_compute. reflexivity.
Qed.
Example C49_example_documents : html_of T0 (sections (map source [Para (u "One two"); Heading 2 (u "Three"); Code (u "*a* <b>"); Pre (u "|x|"); Raw (u "<i>"); Para (u "Four")])) =
  Some (sections [u "<p>One two</p>"; u "<h2>Three</h2>"; u "<pre><code>*a* &lt;b&gt;</code></pre>"; u "<pre>|x|</pre>"; u "<i>"; u "<p>Four</p>"]).
Proof. vm_compute. reflexivity. Qed.

(** ** C50: headings *)
Theorem C50_headings : forall W T fuel n t, ready T -> (1 < fuel)%nat -> t_lite T = false -> 1 <= n <= 6 -> accepts paragraph t ->
  exists s, parse W T fuel [] (heading_tag n ++ u ". " ++ t) = Ret (element (heading_tag n) (breaks (line_break T) t)) s.
Proof. exact headings. Qed.
Print Assumptions C50_headings.
Example C50_example : heading_tag 3 ++ u ". " ++ u "Hello" = u "h3. Hello" /\ html_of T0 (u "h3. Hello") = Some (u "<h3>Hello</h3>").
Proof. split; vm_compute; reflexivity. Qed.

(** ** C51: code blocks *)
Theorem C51_code_partial : forall W T fuel c, ready T -> (1 < fuel)%nat -> t_restricted T = false -> code_text c -> token_free T c ->
  exists s, parse W T fuel [] (u "bc. " ++ c) = Ret (u "<pre><code>" ++ entities true c ++ u "</code></pre>") s.
Proof. exact code_blocks. Qed.
Print Assumptions C51_code_partial.
Theorem C51_pre_partial : forall W T fuel c, ready T -> (1 < fuel)%nat -> t_lite T = false -> t_restricted T = false -> code_text c -> token_free T c ->
  exists s, parse W T fuel [] (u "pre. " ++ c) = Ret (u "<pre>" ++ entities true c ++ u "</pre>") s.
Proof. exact pre_blocks. Qed.
Print Assumptions C51_pre_partial.
(** In restricted mode the content is escaped twice. *)
Theorem C51_restricted_partial : forall W T fuel c, ready T -> (1 < fuel)%nat -> t_restricted T = true -> code_text c -> token_free T c ->
  exists s, parse W T fuel [] (u "bc. " ++ c) = Ret (u "<pre><code>" ++ entities true (entities false c) ++ u "</code></pre>") s.
Proof. exact code_restricted. Qed.
Print Assumptions C51_restricted_partial.
Theorem C51_restricted_refuted : html_of (set_restricted true T0) (u "bc. a<b") = Some (u "<pre><code>a&amp;lt;b</code></pre>").
Proof. vm_compute. reflexivity. Qed.
Print Assumptions C51_restricted_refuted.
Example C51_example : code_text (u "*a*" ++ [10] ++ u """b"":http://c <d>") /\ token_free T0 (u "*a*") /\
  html_of T0 (u "bc. *a*" ++ [10] ++ u """b"":http://c <d>") = Some (u "<pre><code>*a*" ++ [10] ++ u "&quot;b&quot;:http://c &lt;d&gt;</code></pre>").
Proof.
  split; [|split].
  - split; [vm_compute; intuition discriminate|]. intros l Hl. vm_compute in Hl. destruct Hl as [<-|[<-|[]]]; reflexivity.
  - intros a b E. apply (f_equal (@List.length N)) in E. rewrite !app_length in E. change (List.length (u "*a*")) with 3%nat in E. change (List.length (t_uid T0)) with 15%nat in E. lia.
  - vm_compute. reflexivity.
Qed.

(** ** C52: notextile *)
Theorem C52_notextile_partial : forall W T fuel c, ready T -> (1 < fuel)%nat -> t_lite T = false -> t_restricted T = false -> code_text c -> no_br c -> token_free T c ->
  exists s, parse W T fuel [] (u "notextile. " ++ c) = Ret c s.
Proof. exact raw_text. Qed.
Print Assumptions C52_notextile_partial.
(** A br tag gets a newline. *)
Theorem C52_br_refuted : html_of T0 (u "notextile. a<br>b") = Some (u "a<br>" ++ [10] ++ u "b").
Proof. vm_compute. reflexivity. Qed.
Print Assumptions C52_br_refuted.
Example C52_example : html_of T0 (u "notextile. *a* <b c=""d"">" ++ [10] ++ u "@e@ & f") = Some (u "*a* <b c=""d"">" ++ [10] ++ u "@e@ & f").
Proof. vm_compute. reflexivity. Qed.
