(** The automata of paragraphs with links. *)
From Verif Require Import Str Unicode Regex RegexParse RegexSnips RegexTheory RegexAuto RegexGroups Lib ModelBase ModelHtml ModelUrl
  ModelAttrs ModelInline ModelParser ProofParse ProofLinks SpecPlain ProofPlain ProofParas ProofSections SpecDoc ProofDocument SpecText ProofText SpecSigned ProofSignedDoc
  ProofPages SpecCode ProofCode SpecLinked.
#[local] Arguments u : simpl never.
Definition written_link : auto := mk_auto
  (around_code ++ [(0, ch 34, 101); (1, ch 34, 101); (8, ch 34, 101)]
   ++ map (fun tr => (fst (fst tr) + 100, snd (fst tr), snd tr + 100)) (au_trans paragraph)
   ++ flat_map (fun q => [(q, ch 34, 42)]) [102; 103; 104; 105; 107; 109]
   ++ [(42, ch 58, 43); (43, one_of url_chars, 43); (43, one_of url_last, 20)])%nat
  0%nat (20 :: 21 :: au_final paragraph)%nat.
Definition early_rx : list rx := [TEXTILE_TAG_RE; TEXTILE_LIGHT_TAG_RE; DIVIDER_RE; NOTEDEF_RE; SPECIAL_NOTEXTILE; SPECIAL_EQ; SPECIAL_CODE; SPECIAL_AT; SPECIAL_PRE; SPECIAL_COMMENT; RESTRICTED_URLREF_RE; UNRESTRICTED_URLREF_RE].
Lemma written_link_rx : forallb (fun r => never written_link (rx_re r)) early_rx = true. Proof. vm_compute. reflexivity. Qed.
Definition closers : cls := mk_cls false (map (fun c => CRange c c) [34; 39; 41; 125; 93; 187; 171; 8250; 8249; 8220; 8216; 8217]).
Definition early_small : list re := [RCls (ch 13); start_cls space_cls; line_blank; RSeq (RCls closers) (RCls blank)].
Lemma written_link_small : forallb (never written_link) early_small = true. Proof. vm_compute. reflexivity. Qed.
Lemma label_stage : forallb (fun r => never (tailed_of label) (rx_re r)) (stage_rx false false) = true. Proof. vm_compute. reflexivity. Qed.
Lemma label_glyph : forallb (fun r => never label (rx_re r)) GLYPH_RX = true. Proof. vm_compute. reflexivity. Qed.
Definition label_chars : str := u """([{)]}<>$&|^*@=".
Definition label_re : list re := map (fun c => RCls (ch c)) label_chars ++ [start_cls space_cls; start_cls (one_of (u "!:")); end_newline; line_blank; lit_re (u ":link") (RCls (ch 83)); RSeq (RCls space_cls) (RAssert EOT)].
Lemma label_small : forallb (never label) label_re = true. Proof. vm_compute. reflexivity. Qed.
