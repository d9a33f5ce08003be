(** C73, C74: definition lists. *)
From Verif Require Import Str Regex RegexAuto ModelBase ModelHtml ModelInline ModelParser Samples SpecPlain SpecNewlines SpecDoc SpecLists SpecDefs ProofDocument ProofListDoc ProofListNested ProofDefs ProofDefsKept.

(** ** C73: the whole result of documents of definition lists, lists and paragraphs of one line.
    The only failure is that of C41, a number past 2^64 - 1. *)
Theorem C73_definitions : forall W T fuel l, ready T -> t_lite T = false -> (1 < fuel)%nat -> Forall proper_passage l ->
  match passages_html l from_one with
  | Some hs => exists s, parse W T fuel [] (sections (map passage_source l)) = Ret (sections hs) s
  | None => parse W T fuel [] (sections (map passage_source l)) = Panic Overflow
  end.
Proof. exact (fun W T fuel l H1 H2 => defs_document W T (proj1 H1) H2 fuel l H1). Qed.
Print Assumptions C73_definitions.

(** A definition list with a term that has no definition, between a list that is numbered and one that goes on. *)
Definition C73_doc : list passage :=
  [Plain (ListOf (Numbers One) [Item (u "one") Bullets []]); Defs [(u "Rust", Some (u "a language, 1st of its kind.")); (u "Crate", None); (u "Textile, a markup", Some (u "text"))];
   Plain (Line (u "Some words")); Plain (ListOf (Numbers Continue) [Item (u "two") Bullets []])].
Example C73_example : Forall proper_passage C73_doc /\
  passage_source (nth 1 C73_doc (Defs [])) = u "- Rust := a language, 1st of its kind." ++ nl ++ u "- Crate" ++ nl ++ u "- Textile, a markup := text" /\
  match passages_html C73_doc from_one with
  | Some [a; b; c; d] => b = u "<dl>" ++ nl ++ u "	<dt>Rust</dt>" ++ nl ++ u "	<dd>a language, 1st of its kind.</dd>" ++ nl ++ u "	<dt>Crate</dt>" ++ nl ++ u "	<dt>Textile, a markup</dt>" ++ nl ++ u "	<dd>text</dd>" ++ nl ++ u "</dl>" /\
      c = u "<p>Some words</p>" /\ starts_with (u "<ol start=""2"">") d = true
  | _ => False
  end.
Proof.
  split; [|split; [vm_compute; reflexivity|vm_compute; auto]].
  assert (forall t, ProofDocument.runs item_text [au_start item_text] t = true -> accepts item_text t) as P by (intros; apply runs_accepts; assumption).
  apply Forall_cons; [apply proper_of; [discriminate|vm_compute; reflexivity..]|]. apply Forall_cons.
  { split; [|eexists _, _; left; reflexivity]. repeat (apply Forall_cons; [split; cbn [fst snd]; try exact I; apply P; vm_compute; reflexivity|]). apply Forall_nil. }
  apply Forall_cons; [apply runs_accepts; vm_compute; reflexivity|]. apply Forall_cons; [apply proper_of; [discriminate|vm_compute; reflexivity..]|]. apply Forall_nil.
Qed.

(** ** C74: the words of definition lists are kept.
    What holds: for the definition lists of C73, each term is the content of a dt element, each definition that of a dd element.
    Missing: other definition lists. *)
Theorem C74_words_kept_partial : forall W T fuel l html s, ready T -> t_lite T = false -> (1 < fuel)%nat -> Forall proper_passage l ->
  parse W T fuel [] (sections (map passage_source l)) = Ret html s ->
  forall es t o, In (Defs es) l -> In (t, o) es ->
    (exists a b, html = a ++ u "<dt>" ++ t ++ u "</dt>" ++ b) /\ (forall d, o = Some d -> exists a b, html = a ++ u "<dd>" ++ d ++ u "</dd>" ++ b).
Proof. exact defs_kept. Qed.
Print Assumptions C74_words_kept_partial.
(** False in general: without a term the definition is lost. *)
Theorem C74_no_term_refuted : html_of T0 (u "- a := b" ++ nl ++ u "- := lost words") = Some (u "<dl>" ++ nl ++ u "	<dt>a</dt>" ++ nl ++ u "	<dd>b</dd>" ++ nl ++ u "</dl>").
Proof. vm_compute. reflexivity. Qed.
Print Assumptions C74_no_term_refuted.
Example C74_example : exists s, parse W0 T0 5 [] (sections (map passage_source C73_doc)) = Ret (match passages_html C73_doc from_one with Some hs => sections hs | None => [] end) s /\ In (u "Crate", None) [(u "Rust", Some (u "a language, 1st of its kind.")); (u "Crate", None); (u "Textile, a markup", Some (u "text"))].
Proof. eexists. split; [vm_compute; reflexivity|]. right. left. reflexivity. Qed.
