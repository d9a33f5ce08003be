(** Paragraphs with inline code and untouched fragments: the automata. *)
From Verif Require Import Str Unicode Regex RegexParse RegexSnips RegexTheory RegexAuto RegexGroups Lib ModelBase ModelHtml ModelUrl
  ModelAttrs ModelInline ModelParser SpecRegex ProofRegex ProofCharref SpecParse ProofParse Logic ProofWalk ProofState SpecState ProofMemory ProofCache ProofLinks ProofDoc
  SpecPlain ProofPlain SpecNewlines ProofNewlines ProofParas ProofTags ProofSections ProofBlocks ProofStateEx SpecDoc ProofDocument SpecText ProofText ProofWeave ProofSpan ProofSpanRe ProofSpanText SpecSpans ProofSpanDoc
  SpecSigned ProofSigned ProofSignedDoc ProofSignedPage ProofSignedEnd ProofSignedTop ProofPages ProofSpecial SpecCode.
#[local] Arguments u : simpl never.

(** The source. *)
Definition not_at : cls := other [64; 10; 13].
Definition not_end : cls := other [10; 13].
Definition written_code : auto := mk_auto
  (around_code
   ++ flat_map (fun q => [(q, ch 64, 30); (q, ch 61, 31)]) [0; 1; 8]
   ++ [(30, not_at, 30); (30, ch 64, 20)]
   ++ [(31, ch 61, 32); (32, not_end, 32); (32, ch 61, 33); (33, ch 61, 20)])%nat
  0%nat (20 :: 21 :: au_final paragraph)%nat.
(** With tokens. *)
Definition shelved_code : auto := mk_auto
  (around_code
   ++ flat_map (fun q => reads q 60 (u "textileRef:") 75) [0; 1; 8]
   ++ [(75, one_of id_chars, 75); (75, one_of (u ":"), 76); (76, digit, 77); (77, digit, 77)] ++ reads 77 80 (u ":shelve") 20)%nat
  0%nat (20 :: 21 :: au_final paragraph)%nat.
Definition source_rx : list rx := [TEXTILE_TAG_RE; DIVIDER_RE; NOTEDEF_RE].
Lemma written_rx : forallb (fun r => never written_code (rx_re r)) source_rx = true. Proof. vm_compute. reflexivity. Qed.
Definition source_small : list re := [RCls (ch 13); start_cls space_cls; line_blank].
Lemma written_small : forallb (never written_code) source_small = true. Proof. vm_compute. reflexivity. Qed.
Lemma shelved_stage noimage : forallb (fun r => never (tailed_of shelved_code) (rx_re r)) (stage_rx false noimage) = true. Proof. destruct noimage; vm_compute; reflexivity. Qed.
Lemma shelved_glyph : forallb (fun r => never shelved_code (rx_re r)) GLYPH_RX = true. Proof. vm_compute. reflexivity. Qed.
Definition shelved_re : list re := [RCls (ch 60); RCls (ch 62); end_newline; lit_re (u ":link") (RCls (ch 83))].
Lemma shelved_small : forallb (never shelved_code) shelved_re = true. Proof. vm_compute. reflexivity. Qed.
Lemma shelved_page : page_family shelved_code = true. Proof. vm_compute. reflexivity. Qed.
