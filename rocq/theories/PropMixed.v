(** C79, C80, C81: documents that mix blocks of all kinds. *)
From Verif Require Import Str Unicode Regex RegexAuto ModelBase ModelAttrs ModelParser Samples SpecAtts SpecPlain SpecNewlines SpecDoc SpecLists SpecTables SpecDefs SpecSigned SpecMixed SpecFormed ProofDocument ProofListNested ProofSignedTop ProofSigDec ProofMixed ProofApart ProofFormed.

(** ** C79: the whole result of documents that mix paragraphs, headings, quotations, code,
    comments (all with attributes), lists, tables and definition lists.
    The only failure is that of C41, a number past 2^64 - 1. *)
Theorem C79_mixed : forall W T fuel ms, ready T -> t_lite T = false -> (1 < fuel)%nat -> Forall (mixed_ok T) ms -> apart ms ->
  match mixed_page (t_restricted T) (line_break T) (map (seen_mixed T) ms) from_one with
  | Some hs => exists s, parse W T fuel [] (mixed_source ms) = Ret (sections hs) s
  | None => parse W T fuel [] (mixed_source ms) = Panic Overflow
  end.
Proof. exact mixed_documents. Qed.
Print Assumptions C79_mixed.

Definition C79_doc : list mixed :=
  [Worded (Signed (SigH 1) [ClassId (u "top") (Some (u "t"))] (u "Title"));
   Worded (Anonymous (u "Some words," ++ [10] ++ u "some more."));
   Listed (Numbers One) [SpecLists.Item (u "one") Bullets [SpecLists.Item (u "in it") Bullets []]; SpecLists.Item (u "two") Bullets []];
   Worded (Comment (u "not <shown>"));
   Tabled (mk_table None [[plain_cell true (u "Year"); plain_cell false (u "1999")]] []);
   Worded (Extended SigBc [SpecAtts.Lang (u "ruby")] (u "a < b") [u "*c*"]);
   Worded (Signed SigBq [SpecAtts.Lang (u "fr")] (u "Un mot"));
   Listed (Numbers Continue) [SpecLists.Item (u "three") Bullets []];
   Defined [(u "Rust", Some (u "a language")); (u "Crate", None)]].
Definition C79_html : str := sections [
  u "<h1 class=""top"" id=""t"">Title</h1>";
  u "<p>Some words,<br>
some more.</p>";
  u "<ol>
	<li>one
	<ul>
		<li>in it</li>
	</ul></li>
	<li>two</li>
</ol>";
  u "	<table>
		<tr>
			<th>Year</th>
			<td>1999</td>
		</tr>
	</table>";
  u "<pre><code class=""ruby"">a &lt; b

*c*</code></pre>";
  u "<blockquote lang=""fr"">
	<p lang=""fr"">Un mot</p>
</blockquote>";
  u "<ol start=""3"">
	<li>three</li>
</ol>";
  u "<dl>
	<dt>Rust</dt>
	<dd>a language</dd>
	<dt>Crate</dt>
</dl>"].
Example C79_example : ready T0 /\ Forall (mixed_ok T0) C79_doc /\ apart C79_doc /\ html_of T0 (mixed_source C79_doc) = Some C79_html /\
  option_map sections (mixed_page (t_restricted T0) (line_break T0) (map (seen_mixed T0) C79_doc) from_one) = Some C79_html.
Proof.
  split; [exact plain_ready|]. split; [|split; [|split; vm_compute; reflexivity]].
  - assert (forall t, ProofDocument.runs paragraph [au_start paragraph] t = true -> accepts paragraph t) as P by (intros; apply runs_accepts; assumption).
    assert (forall t, ProofDocument.runs item_text [au_start item_text] t = true -> accepts item_text t) as Q by (intros; apply runs_accepts; assumption).
    pose proof code_dec as C. pose proof (free_dec T0) as F. unfold C79_doc.
    apply Forall_cons. { split; [apply itemsb_ok; [split; discriminate|vm_compute; reflexivity|apply F; vm_compute; reflexivity]|]. split; [apply closedb_ok; vm_compute; reflexivity|].
      split; [apply P; vm_compute; reflexivity|]. split; [apply F; vm_compute; reflexivity|discriminate]. }
    apply Forall_cons. { apply P. vm_compute. reflexivity. }
    apply Forall_cons. { apply proper_of; [discriminate|vm_compute; reflexivity..]. }
    apply Forall_cons. { split; [apply C; vm_compute; reflexivity|]. split; [apply F; vm_compute; reflexivity|reflexivity]. }
    apply Forall_cons. { split; [discriminate|]. split; [|split; [intros g []|]].
      - intros r [<-|[]]; (split; [discriminate|]); intros c [<-|[<-|[]]]; (split; [|discriminate]); right; apply runs_accepts; vm_compute; reflexivity.
      - intros c r rs E. injection E as <- _ _. discriminate. }
    apply Forall_cons. { split; [apply itemsb_ok; [exact I|vm_compute; reflexivity|apply F; vm_compute; reflexivity]|]. split; [apply closedb_ok; vm_compute; reflexivity|]. split; [|split; [|discriminate]].
      - intros x [<-|[<-|[]]]; (split; [apply C; vm_compute; reflexivity|apply F; vm_compute; reflexivity]).
      - intros x [<-|[]] _. split; [apply unsigned_star|]. exists 99. split; [vm_compute; auto|reflexivity]. }
    apply Forall_cons. { split; [apply itemsb_ok; [exact I|vm_compute; reflexivity|apply F; vm_compute; reflexivity]|]. split; [apply closedb_ok; vm_compute; reflexivity|].
      split; [apply P; vm_compute; reflexivity|]. split; [apply F; vm_compute; reflexivity|discriminate]. }
    apply Forall_cons. { apply proper_of; [discriminate|vm_compute; reflexivity..]. }
    apply Forall_cons; [|apply Forall_nil]. split; [|eexists _, _; left; reflexivity]. repeat (apply Forall_cons; [split; cbn [fst snd]; try exact I; apply Q; vm_compute; reflexivity|]). apply Forall_nil.
  - cbn [apart C79_doc takes_more bare]. split; [discriminate|]. split; [discriminate|]. split; [discriminate|]. split; [discriminate|]. split; [discriminate|]. split; [reflexivity|]. split; [discriminate|]. split; [discriminate|exact I].
Qed.
(** Without a signature the block after code that goes on would belong to the code: a list does. *)
Example C79_apart : ~ apart [Worded (Extended SigBc [] (u "a") []); Listed Bullets [SpecLists.Item (u "b") Bullets []]] /\
  html_of T0 (mixed_source [Worded (Extended SigBc [] (u "a") []); Listed Bullets [SpecLists.Item (u "b") Bullets []]]) = Some (u "<pre><code>a" ++ [10; 10] ++ u "* b</code></pre>").
Proof. split; [intros [H _]; discriminate (H eq_refl)|vm_compute; reflexivity]. Qed.

(** ** C80: a block is shown in a document as it is shown alone.
    What holds: the documents of C79 in which no list goes on with the numbers of an earlier one:
    the HTML is that of the blocks, each parsed on its own, without the empty ones (comments).
    A block that panics alone makes the document panic.
    Missing: blocks with other contents (spans, links, images, footnotes, references). *)
Theorem C80_apart_partial : forall W T fuel ms, ready T -> t_lite T = false -> (1 < fuel)%nat -> Forall (mixed_ok T) ms -> apart ms -> Forall self_numbered ms ->
  (forall hs, Forall2 (fun m h => exists s, parse W T fuel [] (mixed_source [m]) = Ret h s) ms hs ->
     exists s, parse W T fuel [] (mixed_source ms) = Ret (sections (filter shown hs)) s) /\
  (forall m e, In m ms -> parse W T fuel [] (mixed_source [m]) = Panic e -> parse W T fuel [] (mixed_source ms) = Panic e).
Proof. exact blocks_apart. Qed.
Print Assumptions C80_apart_partial.
Definition C80_doc : list mixed := firstn 7 C79_doc.
Example C80_example : Forall self_numbered C80_doc /\ option_map (fun x => List.length (filter shown x)) (Some (map (fun m => match html_of T0 (mixed_source [m]) with Some h => h | None => [] end) C80_doc)) = Some 6%nat /\
  html_of T0 (mixed_source C80_doc) = Some (sections (filter shown (map (fun m => match html_of T0 (mixed_source [m]) with Some h => h | None => [] end) C80_doc))).
Proof.
  split; [|split; vm_compute; reflexivity]. repeat (apply Forall_cons; [try exact I|]); [|apply Forall_nil].
  intros k Hk. vm_compute in Hk. intuition (subst; exact I).
Qed.
(** False in general: a list that goes on. *)
Theorem C80_continued_refuted :
  html_of T0 (sections [u "# a"; u "#_ b"]) = Some (u "<ol>" ++ nl ++ u "	<li>a</li>" ++ nl ++ u "</ol>" ++ nl ++ nl ++ u "<ol start=""2"">" ++ nl ++ u "	<li>b</li>" ++ nl ++ u "</ol>") /\
  html_of T0 (u "#_ b") = Some (u "<ol start=""1"">" ++ nl ++ u "	<li>b</li>" ++ nl ++ u "</ol>").
Proof. split; vm_compute; reflexivity. Qed.
Print Assumptions C80_continued_refuted.

(** ** C81: the HTML is well formed: elements of known names, closed in the order they were
    opened, attributes of known names whose values contain no quote or angle bracket, and no other
    angle bracket.
    What holds: the documents of C79; raw blocks in restricted mode only.
    Missing: blocks with other contents (spans, links, images, footnotes, references). *)
Theorem C81_formed_partial : forall W T fuel ms html s, ready T -> t_lite T = false -> (1 < fuel)%nat -> Forall (mixed_ok T) ms -> apart ms -> Forall (no_raw (t_restricted T)) ms ->
  parse W T fuel [] (mixed_source ms) = Ret html s -> formed html.
Proof. exact documents_formed. Qed.
Print Assumptions C81_formed_partial.
(** False in general: a list below an item changes its kind. *)
Theorem C81_refuted : exists html, html_of T0 (u "* a" ++ nl ++ u "** b" ++ nl ++ u "*# c") = Some html /\ ~ formed html.
Proof. eexists. split; [vm_compute; reflexivity|]. apply not_formed. vm_compute. reflexivity. Qed.
Print Assumptions C81_refuted.
Example C81_example : Forall (no_raw (t_restricted T0)) C79_doc /\ ~ formed (u "<p>a</p></p>") /\
  html_of (set_restricted true T0) (mixed_source [Worded (Signed SigRaw [] (u "<b>")); Worded (Anonymous (u "a"))]) = Some (sections [u "&lt;b&gt;"; u "<p>a</p>"]).
Proof. split; [repeat constructor|]. split; [apply not_formed; vm_compute; reflexivity|vm_compute; reflexivity]. Qed.
