(** Theorems about paragraphs with links. *)
From Verif Require Import Str Unicode RegexAuto ModelBase ModelParser SpecPlain SpecDoc SpecSigned SpecCode SpecLinks SpecLinked ProofDocument ProofSignedTop ProofCodeTop ProofLinkedTop Samples.

(** ** C67: links *)
Theorem C67_linked_documents : forall W T fuel ps, ready T -> rel_ok T -> (2 < fuel)%nat -> (forall p, In p ps -> linked_ok W T p) ->
  2 * fold_right N.add 0 (map links_in ps) <= u32_max ->
  exists s, parse W T fuel [] (sections (map linked_text ps)) = Ret (sections (map (linked_html T (line_break T)) ps)) s.
Proof. exact linked_documents. Qed.
Print Assumptions C67_linked_documents.
Definition C67_settings : textile := set_rel (Some (u "nofollow")) T0.
Definition C67_paras : list linked_para :=
  [(u "See ", [(mk_link (u "the site") (u "http://example.com/a?b=c,d#e"), u "http://example.com/a?b=c,d#e", u "," ++ [10] ++ u "or "); (mk_link (u "here") (u "/a/b.html"), u "/a/b.html", u ".")]);
   ([], [(mk_link (u "Top") (u "http://x"), u "http://x", [])]);
   (u "End", [])].
Example C67_example : ready C67_settings /\ rel_ok C67_settings /\ (forall p, In p C67_paras -> linked_ok W0 C67_settings p) /\ 2 * fold_right N.add 0 (map links_in C67_paras) <= u32_max /\
  sections (map linked_text C67_paras) = sections [u "See ""the site"":http://example.com/a?b=c,d#e," ++ [10] ++ u "or ""here"":/a/b.html."; u """Top"":http://x"; u "End"] /\
  html_of C67_settings (sections (map linked_text C67_paras)) =
  Some (sections [u "<p>See <a href=""http://example.com/a?b=c,d#e"" rel=""nofollow"">the site</a>,<br>" ++ [10] ++ u "or <a href=""/a/b.html"" rel=""nofollow"">here</a>.</p>"; u "<p><a href=""http://x"" rel=""nofollow"">Top</a></p>"; u "<p>End</p>"]).
Proof.
  split; [exact plain_ready|]. split; [intros r E; injection E as <-; intros c Hc; vm_compute in Hc; vm_compute; intuition (subst; tauto)|]. split.
  - assert (forall A t, ProofDocument.runs A [au_start A] t = true -> accepts A t) as P by (intros; apply runs_accepts; assumption).
    pose proof (fun t => uid_absent C67_settings t) as F.
    assert (forall x t, existsb (N.eqb x) t = false -> ~ In x t) as I by (intros x t; apply absent_char).
    assert (forall a c, existsb (N.eqb c) url_last = true -> forallb (fun d => existsb (N.eqb d) url_chars) a = true -> written_url (a ++ [c])) as U.
    { intros a c Hc Ha. exists a, c. split; [reflexivity|]. rewrite forallb_forall in Ha. assert (forall d l, existsb (N.eqb d) l = true -> In d l) as Q by (intros d l E; apply existsb_exists in E as (x & E1 & E2); apply N.eqb_eq in E2 as ->; exact E1). auto. }
    intros p Hp. repeat (destruct Hp as [<-|Hp]); [..|destruct Hp]; unfold linked_ok; cbn [fst snd].
    + split; [apply P; vm_compute; reflexivity|]. cbn [links_follow]. split; [|split; [|split; [apply P; vm_compute; reflexivity|]]; [|split; [|split; [|split; [apply P; vm_compute; reflexivity|exact Logic.I]]]]].
      * split; [apply P; vm_compute; reflexivity|]. split; [apply I; reflexivity|]. split; [|apply F; vm_compute; reflexivity]. apply (U (u "http://example.com/a?b=c,d#") 101); vm_compute; reflexivity.
      * left. exists (u "http"). split; [vm_compute; reflexivity|]. split; [left; reflexivity|]. split; [apply I; reflexivity|]. split; apply I; reflexivity.
      * split; [apply P; vm_compute; reflexivity|]. split; [apply I; reflexivity|]. split; [|apply F; vm_compute; reflexivity]. apply (U (u "/a/b.htm") 108); vm_compute; reflexivity.
      * right. split; [vm_compute; reflexivity|]. split; [vm_compute; discriminate|]. split; [apply I; reflexivity|]. split; [apply I; reflexivity|reflexivity].
    + split; [apply P; vm_compute; reflexivity|]. cbn [links_follow]. split; [|split; [|split; [apply P; vm_compute; reflexivity|exact Logic.I]]].
      * split; [apply P; vm_compute; reflexivity|]. split; [apply I; reflexivity|]. split; [|apply F; vm_compute; reflexivity]. apply (U (u "http://") 120); vm_compute; reflexivity.
      * left. exists (u "http"). split; [vm_compute; reflexivity|]. split; [left; reflexivity|]. split; [apply I; reflexivity|]. split; apply I; reflexivity.
    + apply P. vm_compute. reflexivity.
  - split; [vm_compute; discriminate|]. split; vm_compute; reflexivity.
Qed.
(** Outside of these texts: an ampersand in an address ends the call in restricted mode; a scheme that is not accepted leaves the text as it was. *)
Example C67_limits :
  html_of (set_restricted true T0) (u "See ""a"":http://x/&b b.") = None /\
  match parse (mk_world (fun s => Some (u "foo", s)) (fun s => Some s) (fun _ => false) (fun _ _ _ => None) (fun _ => None)) T0 60 [] (u "See ""a"":foo:b.") with Ret h _ => h = u "<p>See &#8220;a&#8221;:foo:b.</p>" | _ => False end.
Proof. split; vm_compute; reflexivity. Qed.
