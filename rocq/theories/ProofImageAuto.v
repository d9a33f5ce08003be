(** The automaton of paragraphs with images. *)
From Verif Require Import Str Unicode Regex RegexParse RegexSnips RegexTheory RegexAuto RegexGroups Lib ModelBase ModelHtml ModelUrl
  ModelAttrs ModelInline ModelParser ProofParse ProofLinks SpecPlain ProofPlain ProofParas ProofSections SpecDoc ProofDocument SpecText ProofText SpecSigned ProofSignedDoc
  ProofPages ProofWeave ProofSpanDoc SpecCode ProofCode SpecLinked ProofLinkAuto SpecImages.
#[local] Arguments u : simpl never.
Definition src_chars : str := url_last ++ u ".:?,;".
Definition written_image : auto := mk_auto
  (around_code ++ [(0, ch 33, 40); (1, ch 33, 40); (8, ch 33, 40)]
   ++ [(40, one_of (u "<=>"), 41); (40, ch 38, 60); (60, one_of (u "lg"), 61); (61, ch 116, 62); (62, ch 59, 41)]
   ++ [(40, one_of src_first, 42); (41, one_of src_first, 42); (42, one_of src_chars, 42); (42, ch 40, 101)]
   ++ map (fun tr => (fst (fst tr) + 100, snd (fst tr), snd tr + 100)) (au_trans paragraph)
   ++ flat_map (fun q => [(q, ch 41, 44)]) [102; 103; 104; 105; 107; 109]
   ++ [(42, ch 33, 20); (44, ch 33, 20); (42, ch 33, 46); (44, ch 33, 46); (46, ch 58, 43); (43, one_of url_chars, 43); (43, one_of url_last, 20)])%nat
  0%nat (20 :: 21 :: au_final paragraph)%nat.
Definition image_rx : list rx := early_rx ++ [QUOTED_QUOTE_RE; SLICE_RE].
Lemma written_image_rx : forallb (fun r => never written_image (rx_re r)) image_rx = true. Proof. vm_compute. reflexivity. Qed.
Definition image_small : list re := [RCls (ch 13); start_cls space_cls; line_blank; RCls (ch 34)].
Lemma written_image_small : forallb (never written_image) image_small = true. Proof. vm_compute. reflexivity. Qed.
