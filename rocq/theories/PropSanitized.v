(** Property C85: the sanitizer. *)
From Verif Require Import Str ModelBase ModelInline ModelParser Samples SpecSanitized ProofSanitized.

(** ** C85: the sanitizer sees the whole HTML, once, and nothing is added after it.
    On every document that is not blank, whatever the sanitizer does: it is given the same text that would be the result
    without it, but for the last touch to break tags and newlines; what it returns is the
    result, but for that touch; it has no influence on anything else, panics included. *)
Theorem C85_last : forall W T fuel c text, is_empty (trim text) = false ->
  exists r, forall f, parse W (with_sanitizer f T) fuel c text = map_res (fun x => tidied T (clean_by f x)) r.
Proof. exact sanitized. Qed.
Print Assumptions C85_last.
(** The last touch leaves a text without break tags as it is, but for newlines at the end. *)
Theorem C85_touch : forall T x, (forall a b, x = a ++ b -> break_at b = None) -> tidied T x = drop_newlines x.
Proof. exact no_breaks. Qed.
Print Assumptions C85_touch.
Example C85_example :
  html_of (with_sanitizer (Some (fun x => x ++ u "<br>b<br />")) T0) (u "a *b*") = Some (u "<p>a <strong>b</strong></p><br>
b<br>") /\
  tidied T0 (u "a<br />b<br>
c") = u "a<br>
b<br>
c".
Proof. split; vm_compute; reflexivity. Qed.
