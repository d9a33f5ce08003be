(** Property C83: the references of footnotes in any text; and one more case of C76. *)
From Verif Require Import Str ModelBase ModelHtml ModelParser Samples SpecFootnotes SpecReferences ProofReferences.

(** ** C83: the step that looks for references of footnotes finds, in every text and state, exactly those
    that [tokens] tells, replaces each one by the mark C75 describes, and leaves everything else. *)
Theorem C83_references : forall T t c s, prefix_ok (t_link_prefix T) ->
  footnote_ref T t (with_table (t_link_prefix T) c s) =
    Ret (fst (tokens_html (t_link_prefix T) (tokens t) c)) (with_table (t_link_prefix T) (snd (tokens_html (t_link_prefix T) (tokens t) c)) s).
Proof. exact references_step. Qed.
Print Assumptions C83_references.
(** The references and the characters between them are the text. *)
Theorem C83_source : forall t, flat_map token_source (tokens t) = t.
Proof. exact (fun t => tokens_source (List.length t) false t (le_n _)). Qed.
Print Assumptions C83_source.
Example C83_example :
  prefix_ok (t_link_prefix T0) /\
  tokens (u "a[1][2!] [3] b[4!]c [5]") = [Char 97; Ref (u "1", false, []); Ref (u "2", true, u " ")] ++ map Char (u "[3] b") ++ [Ref (u "4", true, [])] ++ map Char (u "c [5]") /\
  fst (tokens_html (u "abc-") (tokens (u "a[1] [2] b[1!]c[3")) ([], 0)) = u "a<sup class=""footnote"" id=""fnrevabc-1""><a href=""#fnabc-1"">1</a></sup> [2] b<sup class=""footnote"">1</sup>c[3".
Proof.
  split; [|split; vm_compute; reflexivity]. intros c H. assert (forallb (fun c => existsb (N.eqb c) (u "abcdefghijklmnopqrstuvwxyzABCDEFGHIJKLMNOPQRSTUVWXYZ0123456789-")) (t_link_prefix T0) = true) as P by (vm_compute; reflexivity).
  rewrite forallb_forall in P. apply P in H. apply existsb_exists in H as (x & Hx & E). apply N.eqb_eq in E. subst. exact Hx.
Qed.

(** ** C76, one more case in which it is false: fractions and the like are taken as numbers of
    references, but not of footnotes: the link leads nowhere. *)
Theorem C76_fraction_refuted :
  html_of T0 (u "a[½]

fn½. b") = Some (u "<p>a<sup class=""footnote"" id=""fnrevabc-1""><a href=""#fnabc-1"">½</a></sup></p>

<p>fn½. b</p>").
Proof. vm_compute. reflexivity. Qed.
Print Assumptions C76_fraction_refuted.
