(** Theorems about blocks with a signature. *)
From Verif Require Import Str Unicode RegexAuto ModelBase ModelAttrs ModelParser SpecPlain SpecDoc SpecAtts SpecSigned SpecComments ProofDocument ProofSignedTop ProofSigDec ProofComments Samples.

(** ** C63: signatures with attributes, blocks that go on *)
Theorem C63_signed_blocks : forall W T fuel ps, ready T -> (1 < fuel)%nat -> (forall p, In p ps -> part_ok T p) -> separate ps ->
  exists s, parse W T fuel [] (written ps) = Ret (page_html (t_restricted T) (line_break T) (map (seen_part T) ps)) s.
Proof. exact signed_documents. Qed.
Print Assumptions C63_signed_blocks.
Definition C63_parts : list part :=
  [Comment (u "c <b>"); Anonymous (u "One"); Extended SigBq [Lang (u "fr"); ClassId (u "a b") (Some (u "q1"))] (u "Un mot" ++ [10] ++ u "dit") [u "Alors"];
   Extended SigBc [Lang (u "c++"); Style [u "color: red"; u " top:0"] 1] (u "a<b") [u "*c*"]; Signed SigBc [PadLeft 2; ClassId [] (Some (u "x")); Lang (u "ruby"); PadRight 1] (u "d");
   Comment (u "done"); Signed SigP [HAlign Center; Lang (u "en")] (u "End"); Signed (SigH 2) [] (u "Two"); Signed SigP [PadLeft 1] (u "Last")].
Definition C63_html : str :=
  sections [u "<p>One</p>";
    u "<blockquote class=""a b"" id=""q1"" lang=""fr"">" ++ [10] ++ [9] ++ u "<p class=""a b"" id=""q1"" lang=""fr"">Un mot<br>" ++ [10] ++ u "dit</p>" ++ [10; 10] ++ [9] ++ u "<p class=""a b"" id=""q1"" lang=""fr"">Alors</p>" ++ [10] ++ u "</blockquote>";
    u "<pre style=""color: red; top:0;""><code>a&lt;b" ++ [10; 10] ++ u "*c*</code></pre>"; u "<pre id=""x"" style=""padding-left:2em; padding-right:1em;""><code class=""ruby"">d</code></pre>";
    u "<p lang=""en"" style=""text-align:center;"">End</p>"; u "<h2>Two</h2>"; u "<p style=""padding-left:1em;"">Last</p>"].
Example C63_example : ready T0 /\ (forall p, In p C63_parts -> part_ok T0 p) /\ separate C63_parts /\ html_of T0 (written C63_parts) = Some C63_html.
Proof.
  split; [exact plain_ready|]. split; [|split].
  - assert (forall t, ProofDocument.runs paragraph [au_start paragraph] t = true -> accepts paragraph t) as P by (intros; apply runs_accepts; assumption).
    pose proof code_dec as C. pose proof (free_dec T0) as F.
    intros p Hp. repeat (destruct Hp as [<-|Hp]); [..|destruct Hp]; cbn [part_ok].
    + split; [apply C; vm_compute; reflexivity|]. split; [apply F; vm_compute; reflexivity|reflexivity].
    + apply P. vm_compute. reflexivity.
    + split; [apply itemsb_ok; [exact I|vm_compute; reflexivity|apply F; vm_compute; reflexivity]|]. split; [apply closedb_ok; vm_compute; reflexivity|]. split; [|split; [intros x _ H; discriminate|discriminate]].
      intros x [<-|[<-|[]]]; (split; [apply P; vm_compute; reflexivity|apply F; vm_compute; reflexivity]).
    + split; [apply itemsb_ok; [exact I|vm_compute; reflexivity|apply F; vm_compute; reflexivity]|]. split; [apply closedb_ok; vm_compute; reflexivity|]. split; [|split; [|discriminate]].
      * intros x [<-|[<-|[]]]; (split; [apply C; vm_compute; reflexivity|apply F; vm_compute; reflexivity]).
      * intros x [<-|[]] _. split; [apply unsigned_star|]. exists 99. split; [vm_compute; auto|reflexivity].
    + split; [apply itemsb_ok; [exact I|vm_compute; reflexivity|apply F; vm_compute; reflexivity]|]. split; [apply closedb_ok; vm_compute; reflexivity|].
      split; [apply C; vm_compute; reflexivity|]. split; [apply F; vm_compute; reflexivity|discriminate].
    + split; [apply C; vm_compute; reflexivity|]. split; [apply F; vm_compute; reflexivity|reflexivity].
    + split; [apply itemsb_ok; [exact I|vm_compute; reflexivity|apply F; vm_compute; reflexivity]|]. split; [apply closedb_ok; vm_compute; reflexivity|].
      split; [apply P; vm_compute; reflexivity|]. split; [apply F; vm_compute; reflexivity|discriminate].
    + split; [apply itemsb_ok; [split; discriminate|vm_compute; reflexivity|apply F; vm_compute; reflexivity]|]. split; [apply closedb_ok; vm_compute; reflexivity|].
      split; [apply P; vm_compute; reflexivity|]. split; [apply F; vm_compute; reflexivity|discriminate].
    + split; [apply itemsb_ok; [exact I|vm_compute; reflexivity|apply F; vm_compute; reflexivity]|]. split; [apply closedb_ok; vm_compute; reflexivity|].
      split; [apply P; vm_compute; reflexivity|]. split; [apply F; vm_compute; reflexivity|discriminate].
  - exact I.
  - vm_compute. reflexivity.
Qed.
(** In restricted mode classes, ids and styles are not shown. *)
Example C63_restricted : html_of (set_restricted true T0) (u "p(a#b){top:0}[en]=. x") = Some (u "<p lang=""en"" style=""text-align:center;"">x</p>") /\
  itemsb true [ClassId (u "a") (Some (u "b")); Style [u "top:0"] 0; Lang (u "en"); HAlign Center] = true.
Proof. split; vm_compute; reflexivity. Qed.
(** An open parenthesis that is closed only in the text starts a class. *)
Example C63_unclosed : html_of T0 (u "p[en](. a). b") = Some (u "<p class="". a"" lang=""en"">b</p>") /\ closedb [Lang (u "en"); PadLeft 1] (u "a). b") = false /\
  html_of T0 (u "p[en](. a. b") = Some (u "<p lang=""en"" style=""padding-left:1em;"">a. b</p>").
Proof. split; [vm_compute; reflexivity|]. split; vm_compute; reflexivity. Qed.
(** In restricted mode alignment to a side is not recognised. *)
Example C63_sides : html_of (set_restricted true T0) (u "p>. x") = Some (u "<p>p&gt;. x</p>") /\ html_of T0 (u "p>. x") = Some (u "<p style=""text-align:right;"">x</p>").
Proof. split; vm_compute; reflexivity. Qed.

(** ** C64: comments leave no trace *)
(** Whatever the other blocks are: the same HTML, the same panic, the same state. *)
Theorem C64_comment : forall W T fuel cache xs c ys, simple_uid (t_uid T) -> t_block_tags T = true -> t_lite T = false ->
  (forall x, In x (xs ++ ys) -> any_block T x) -> xs ++ ys <> [] -> code_text c -> token_free T c -> may_follow T xs ys ->
  parse W T fuel cache (sections (xs ++ [u "###. " ++ c] ++ ys)) = parse W T fuel cache (sections (xs ++ ys)).
Proof. exact comment_left_out. Qed.
Print Assumptions C64_comment.
Definition C64_before : list str := [u "* a" ++ [10] ++ u "* _b_"; u "|x|y|"; u "bq:http://a.b/c @d@ &"].
Definition C64_after : list str := [u """l"":/u ==z=="; u "<div>q</div>"; u "- k := v"].
Example C64_example : simple_uid (t_uid T0) /\ (forall x, In x (C64_before ++ C64_after) -> any_block T0 x) /\ code_text (u "*c* <d>") /\ token_free T0 (u "*c* <d>") /\ may_follow T0 C64_before C64_after /\
  html_of T0 (sections (C64_before ++ [u "###. *c* <d>"] ++ C64_after)) = html_of T0 (sections (C64_before ++ C64_after)) /\ html_of T0 (sections (C64_before ++ C64_after)) <> None.
Proof.
  pose proof code_dec as C. pose proof (free_dec T0) as F.
  split; [exact (proj1 plain_ready)|]. split; [|split; [apply C; vm_compute; reflexivity|split; [apply F; vm_compute; reflexivity|split; [|split]]]].
  - intros x Hx. repeat (destruct Hx as [<-|Hx]); [..|destruct Hx]; (split; [apply C; vm_compute; reflexivity|split; [apply F; vm_compute; reflexivity|apply visible_dec; vm_compute; reflexivity]]).
  - right. intros x Hx. repeat (destruct Hx as [<-|Hx]); [..|destruct Hx]; apply no_dots_dec; vm_compute; reflexivity.
  - vm_compute. reflexivity.
  - vm_compute. discriminate.
Qed.
(** A comment ends a part with further blocks: the block after it no longer belongs to the part. *)
Theorem C64_between_refuted :
  html_of T0 (sections [u "bc.. a"; u "b"; u "###. c"; u "d"]) = Some (u "<pre><code>a" ++ [10; 10] ++ u "b</code></pre>" ++ [10; 10] ++ u "<p>d</p>") /\
  html_of T0 (sections [u "bc.. a"; u "b"; u "d"]) = Some (u "<pre><code>a" ++ [10; 10] ++ u "b" ++ [10; 10] ++ u "d</code></pre>").
Proof. split; vm_compute; reflexivity. Qed.
Print Assumptions C64_between_refuted.
(** Any number of comments in the documents of C63, also after parts with further blocks. *)
Theorem C64_comments : forall W T fuel ps, ready T -> (1 < fuel)%nat -> (forall p, In p ps -> part_ok T p) -> separate ps -> separate (filter shown_part ps) ->
  exists html s s', parse W T fuel [] (written ps) = Ret html s /\ parse W T fuel [] (written (filter shown_part ps)) = Ret html s'.
Proof. exact comments_unseen. Qed.
Print Assumptions C64_comments.
Example C64_comments_example : separate C63_parts /\ separate (filter shown_part C63_parts) /\ List.length (filter shown_part C63_parts) = 7%nat /\
  html_of T0 (written C63_parts) = html_of T0 (written (filter shown_part C63_parts)).
Proof. split; [exact I|]. split; [exact I|]. split; [reflexivity|]. vm_compute. reflexivity. Qed.
(** A comment of several blocks leaves blank lines. *)
Theorem C64_extended_refuted :
  html_of T0 (sections [u "a"; u "###.. c"; u "d"; u "p. b"]) = Some (u "<p>a</p>" ++ [10; 10; 10; 10] ++ u "<p>b</p>") /\
  html_of T0 (sections [u "a"; u "p. b"]) = Some (u "<p>a</p>" ++ [10; 10] ++ u "<p>b</p>").
Proof. split; vm_compute; reflexivity. Qed.
Print Assumptions C64_extended_refuted.
