(** Theorems about paragraphs with images. *)
From Verif Require Import Str Unicode RegexAuto ModelBase ModelParser SpecPlain SpecDoc SpecSigned SpecCode SpecLinks SpecLinked SpecImages ProofDocument ProofSignedTop ProofCodeTop ProofImagedTop Samples.

(** ** C68: images *)
Theorem C68_pictured_documents : forall W T fuel ps, ready T -> t_get_sizes T = false -> t_noimage T = false -> (2 < fuel)%nat -> (forall p, In p ps -> pictured_ok W T p) ->
  3 * fold_right N.add 0 (map images_in ps) <= u32_max ->
  exists s, parse W T fuel [] (sections (map pictured_text ps)) = Ret (sections (map (pictured_html T (line_break T)) ps)) s.
Proof. exact pictured_documents. Qed.
Print Assumptions C68_pictured_documents.
Definition C68_paras : list pictured :=
  [(u "See ", [mk_placed (mk_image (Some Left) (u "/a/b.png") (Some (u "My cat")) None) (u "/a/b.png") [] (u "," ++ [10] ++ u "or ");
               mk_placed (mk_image (Some Center) (u "http://x/c.png") None (Some (u "/big"))) (u "http://x/c.png") (u "/big") (u ".")]);
   ([], [mk_placed (mk_image (Some Right) (u "d.png") (Some (u "D")) (Some (u "http://x"))) (u "d.png") (u "http://x") (u " end! ok")]);
   (u "End", [])].
Example C68_example : ready T0 /\ t_get_sizes T0 = false /\ t_noimage T0 = false /\ (forall p, In p C68_paras -> pictured_ok W0 T0 p) /\ 3 * fold_right N.add 0 (map images_in C68_paras) <= u32_max /\
  sections (map pictured_text C68_paras) = sections [u "See !</a/b.png(My cat)!," ++ [10] ++ u "or !=http://x/c.png!:/big."; u "!>d.png(D)!:http://x end! ok"; u "End"] /\
  html_of T0 (sections (map pictured_text C68_paras)) =
  Some (sections [u "<p>See <img alt=""My cat"" class=""align-left"" src=""/a/b.png"" title=""My cat"" />,<br>" ++ [10] ++ u "or <a href=""/big""><img alt="""" class=""align-center"" src=""http://x/c.png"" /></a>.</p>";
    u "<p><a href=""http://x""><img alt=""D"" class=""align-right"" src=""d.png"" title=""D"" /></a> end! ok</p>"; u "<p>End</p>"]).
Proof.
  split; [exact plain_ready|]. split; [reflexivity|]. split; [reflexivity|]. split.
  - assert (forall A t, ProofDocument.runs A [au_start A] t = true -> accepts A t) as P by (intros; apply runs_accepts; assumption).
    pose proof (fun t => uid_absent T0 t) as F.
    assert (forall x t, existsb (N.eqb x) t = false -> ~ In x t) as I by (intros x t; apply absent_char).
    assert (forall d l, existsb (N.eqb d) l = true -> In d l) as Q by (intros d l E; apply existsb_exists in E as (x & E1 & E2); apply N.eqb_eq in E2 as ->; exact E1).
    assert (forall a c, existsb (N.eqb c) url_last = true -> forallb (fun d => existsb (N.eqb d) url_chars) a = true -> written_url (a ++ [c])) as U.
    { intros a c Hc Ha. exists a, c. split; [reflexivity|]. rewrite forallb_forall in Ha. auto. }
    assert (forall a c, existsb (N.eqb c) url_last = true -> forallb (fun d => existsb (N.eqb d) url_chars) a = true -> existsb (N.eqb 33) (a ++ [c]) = false -> match a ++ [c] with d :: _ => existsb (N.eqb d) src_first | [] => false end = true -> src_ok (a ++ [c])) as SO.
    { intros a c Hc Ha H33 Hd. split; [auto|]. split; [auto|]. destruct (a ++ [c]) as [|d r]; [discriminate|]. exists d, r. auto. }
    intros p Hp. repeat (destruct Hp as [<-|Hp]); [..|destruct Hp]; unfold pictured_ok; cbn [fst snd].
    + split; [apply P; vm_compute; reflexivity|]. cbn [images_follow pl_text]. split; [|split; [apply P; vm_compute; reflexivity|]]; [|split; [|split; [apply P; vm_compute; reflexivity|exact Logic.I]]].
      * split; [|split; [|split]]; cbn [pl_image pl_src pl_text im_src im_href].
        { split; [|split; [|split]]; cbn [im_src im_alt im_href].
          - apply (SO (u "/a/b.pn") 103); vm_compute; reflexivity.
          - apply F. vm_compute. reflexivity.
          - intros t E. injection E as <-. split; [apply P; vm_compute; reflexivity|apply I; reflexivity].
          - intros h E. discriminate. }
        { right. split; [vm_compute; reflexivity|]. split; [vm_compute; discriminate|]. split; [apply I; reflexivity|]. split; [apply I; reflexivity|reflexivity]. }
        { intros h E. discriminate. }
        { vm_compute. tauto. }
      * split; [|split; [|split]]; cbn [pl_image pl_src pl_href pl_text im_src im_href].
        { split; [|split; [|split]]; cbn [im_src im_alt im_href].
          - apply (SO (u "http://x/c.pn") 103); vm_compute; reflexivity.
          - apply F. vm_compute. reflexivity.
          - intros t E. discriminate.
          - intros h E. injection E as <-. split; [apply (U (u "/bi") 103); vm_compute; reflexivity|apply F; vm_compute; reflexivity]. }
        { left. exists (u "http"). split; [vm_compute; reflexivity|]. split; [left; reflexivity|]. split; [apply I; reflexivity|]. split; apply I; reflexivity. }
        { intros h E. injection E as <-. right. split; [vm_compute; reflexivity|]. split; [vm_compute; discriminate|]. split; [apply I; reflexivity|]. split; [apply I; reflexivity|reflexivity]. }
        { vm_compute. tauto. }
    + split; [apply P; vm_compute; reflexivity|]. cbn [images_follow pl_text]. split; [|split; [apply P; vm_compute; reflexivity|exact Logic.I]].
      split; [|split; [|split]]; cbn [pl_image pl_src pl_href pl_text im_src im_href].
      { split; [|split; [|split]]; cbn [im_src im_alt im_href].
        - apply (SO (u "d.pn") 103); vm_compute; reflexivity.
        - apply F. vm_compute. reflexivity.
        - intros t E. injection E as <-. split; [apply P; vm_compute; reflexivity|apply I; reflexivity].
        - intros h E. injection E as <-. split; [apply (U (u "http://") 120); vm_compute; reflexivity|apply F; vm_compute; reflexivity]. }
      { right. split; [vm_compute; reflexivity|]. split; [vm_compute; discriminate|]. split; [apply I; reflexivity|]. split; [apply I; reflexivity|reflexivity]. }
      { intros h E. injection E as <-. left. exists (u "http"). split; [vm_compute; reflexivity|]. split; [apply I; reflexivity|]. split; apply I; reflexivity. }
      { vm_compute. tauto. }
    + apply P. vm_compute. reflexivity.
  - split; [vm_compute; discriminate|]. split; vm_compute; reflexivity.
Qed.
(** Outside of these texts: an image whose scheme is not accepted stays text; the address an image leads to may have any scheme, also in restricted mode. *)
Example C68_limits :
  let W := mk_world (fun s => if starts_with (u "data:") s then Some (u "data", s) else if starts_with (u "foo:") s then Some (u "foo", s) else None) (fun s => Some s) (fun _ => false) (fun _ _ _ => None) (fun _ => None) in
  (match parse W T0 60 [] (u "See !foo:a! b.") with Ret h _ => h = u "<p>See !foo:a! b.</p>" | _ => False end) /\
  (match parse W (set_restricted true T0) 60 [] (u "See !a.png!:data:b.") with Ret h _ => h = u "<p>See <a href=""data:b""><img alt="""" src=""a.png"" /></a>.</p>" | _ => False end).
Proof. split; vm_compute; reflexivity. Qed.
