(** C54, C55: splitting and substitution by a pattern. *)
From Verif Require Import Str Unicode Regex RegexParse RegexSnips RegexTheory RegexGroups ModelBase ModelInline ModelParser SpecRegex ProofRegex.

(** ** C54: splitting a text by a pattern loses nothing *)
Theorem C54_pieces : forall r text ps, wf_re (rx_re r) = true -> split_rx r text = Some ps ->
  exists lits hits, cut (rx_re r) false [] text lits hits /\
    text = interleave lits (map h_text hits) /\ ps = pieces lits (map (hit_groups (rx_len r)) hits).
Proof. exact splitting. Qed.
Print Assumptions C54_pieces.
Theorem C54_no_group : forall r text ps, wf_re (rx_re r) = true -> rx_len r = 1%nat -> split_rx r text = Some ps ->
  exists hits, cut (rx_re r) false [] text ps hits /\ text = interleave ps (map h_text hits).
Proof. exact splitting_plain. Qed.
Print Assumptions C54_no_group.
Theorem C54_whole_group : forall a names text, wf_re a = true ->
  exists ps, split_rx (mk_rx (RGroup 1 a) 2 names) text = Some ps /\ List.concat ps = text.
Proof. exact splitting_whole. Qed.
Print Assumptions C54_whole_group.
(** the splits of the program: none of them panics *)
Theorem C54_program_splits : forall r text,
  In r [GLYPH_SPLITTER_RE; SLICE_RE; LIST_SPLITTER; RC_SPLITTER; COMPONENTS_RE; MULTI_ENDLINE_RE] ->
  exists ps, split_rx r text = Some ps.
Proof. exact program_splits. Qed.
Print Assumptions C54_program_splits.
Example C54_example : split_rx MULTI_ENDLINE_RE [97; 10; 10; 98; 10; 99; 10; 10; 10] =
  Some [[97]; [10; 10]; [98; 10; 99]; [10; 10; 10]; []].
Proof. vm_compute. reflexivity. Qed.

(** ** C55: substitution touches only the matches *)
Theorem C55_substitution : forall r f text, wf_re r = true ->
  exists lits hits, cut r false [] text lits hits /\
    text = interleave lits (map h_text hits) /\ replace_all r f text = interleave lits (map f hits).
Proof. exact substitution. Qed.
Print Assumptions C55_substitution.
Theorem C55_effectful_substitution : forall r f text s, wf_re r = true ->
  exists lits hits, cut r false [] text lits hits /\ text = interleave lits (map h_text hits) /\
    replace_allM r f text s = bind (mapM f hits) (fun ts => ret (interleave lits ts)) s.
Proof. exact substitutionM. Qed.
Print Assumptions C55_effectful_substitution.
Theorem C55_no_match : forall r f text,
  (forall w v, text = w ++ v -> ~ matches_here r (rev w) v) -> replace_all r f text = text.
Proof. exact substitution_none. Qed.
Print Assumptions C55_no_match.
(** every pattern of the program meets the hypothesis *)
Theorem C55_program_patterns : Forall (fun r => wf_re (rx_re r) = true) all_rx.
Proof. exact program_patterns. Qed.
Print Assumptions C55_program_patterns.
Example C55_example : replace_all (rx_re MULTI_ENDLINE_RE) (fun h => 60 :: h_text h ++ [62]) [97; 10; 10; 98; 10; 10; 10] =
  [97; 60; 10; 10; 62; 98; 60; 10; 10; 10; 62].
Proof. vm_compute. reflexivity. Qed.
