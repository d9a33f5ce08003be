(** Paragraphs with inline code and with fragments that are not touched. *)
From Verif Require Import Str Unicode Regex RegexAuto ModelBase SpecPlain SpecText SpecDoc SpecSigned.

(** ** The text around the fragments: what a paragraph is made of, cut before the first mark and
    after the last mark of each fragment.
    States: 20 after a fragment; 21 after a mark of punctuation after a fragment. *)
Definition after_fragment : cls := one_of (u ",;!.?").
Definition around_code : list trans :=
  au_trans paragraph ++ [(20, blank, 1); (20, newline, 1); (20, after_fragment, 21); (21, blank, 1); (21, newline, 1)]%nat.
Definition before_code : auto := mk_auto around_code 0%nat [0; 1; 8]%nat.
Definition between_code : auto := mk_auto around_code 20%nat [1; 8]%nat.
Definition after_code : auto := mk_auto around_code 20%nat (20 :: 21 :: au_final paragraph)%nat.

(** ** Fragments *)
Inductive fragment := InlineCode (c : str) | InlineRaw (c : str).
Definition fragment_text (f : fragment) : str :=
  match f with InlineCode c => u "@" ++ c ++ u "@" | InlineRaw c => u "==" ++ c ++ u "==" end.
Definition fragment_html (T : textile) (f : fragment) : str :=
  match f with InlineCode c => element (u "code") (entities false (seen_text T c)) | InlineRaw c => seen_text T c end.
Definition within_text (w t : str) : Prop := exists a b, t = a ++ w ++ b.
(** One line of any characters, but for the marks of fragments. *)
Definition fragment_ok (T : textile) (f : fragment) : Prop :=
  match f with
  | InlineCode c =>
      c <> [] /\ ~ In 10 c /\ ~ In 13 c /\ token_free T (seen_text T c) /\
      ~ In 64 c /\ ~ within_text (u "==") c /\ ~ within_text (u "<notextile>") (seen_text T c) /\ ~ within_text (u "<code>") (seen_text T c)
  | InlineRaw c =>
      c <> [] /\ ~ In 10 c /\ ~ In 13 c /\ token_free T (seen_text T c) /\
      ~ within_text (u "==") (c ++ u "=") /\ ~ within_text (u "<notextile>") (seen_text T c) /\ no_br (seen_text T c)
  end.

(** ** A paragraph: a text, and fragments each followed by a text *)
Definition coded := (str * list (fragment * str))%type.
Fixpoint fragments_follow (T : textile) (l : list (fragment * str)) : Prop :=
  match l with
  | [] => True
  | [(f, t)] => fragment_ok T f /\ accepts after_code t
  | (f, t) :: l' => fragment_ok T f /\ accepts between_code t /\ fragments_follow T l'
  end.
Definition coded_ok (T : textile) (p : coded) : Prop :=
  match snd p with
  | [] => accepts paragraph (fst p)
  | l => accepts before_code (fst p) /\ fragments_follow T l
  end.
Definition coded_text (p : coded) : str := fst p ++ flat_map (fun x => fragment_text (fst x) ++ snd x) (snd p).
Definition coded_html (T : textile) (br : str) (p : coded) : str :=
  element (u "p") (breaks br (fst p) ++ flat_map (fun x => fragment_html T (fst x) ++ breaks br (snd x)) (snd p)).
