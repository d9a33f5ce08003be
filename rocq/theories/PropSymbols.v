(** Theorems about typographic symbols. *)
From Verif Require Import Str Unicode RegexAuto ModelBase ModelParser SpecPlain SpecDoc SpecSymbols ProofDocument ProofSignedTop ProofSymbolsTop Samples.

(** ** C70: typographic symbols *)
Theorem C70_symbols : forall W T fuel ps, ready T -> (1 < fuel)%nat -> (forall p, In p ps -> proper_text (fst p) (snd p)) ->
  exists s, parse W T fuel [] (sections (map symbols_text ps)) = Ret (sections (map (symbols_html (line_break T)) ps)) s.
Proof. exact symbol_pages. Qed.
Print Assumptions C70_symbols.
Definition C70_paras : list symbols :=
  [(u "Size", [(Times (u "30") (u "40"), u "or so," ++ [10] ++ u "it was"); (Decade (u "89"), u "when"); (Apostrophe (u "it") (u "s"), u "was"); (Ampersand, u "is"); (Joined (u "at") (u "t"), u "is");
               (Single (u "one"), u "a"); (Double (u "two"), u "b"); (Ellipsis (u "wait"), u "c"); (EmDash, u "d"); (EnDash, u "e")]);
   (u "Foo", [(Trademark, u "a"); (Registered, u "b"); (Copyright, u "c"); (Half, u "d"); (Quarter, u "e"); (ThreeQuarters, u "f"); (Degree, u "g"); (PlusMinus, u "h")]);
   (u "End.", [])].
Example C70_example : ready T0 /\ (forall p, In p C70_paras -> proper_text (fst p) (snd p)) /\
  sections (map symbols_text C70_paras) = sections [u "Size 30x40 or so," ++ [10] ++ u "it was '89 when it's was & is at&t is 'one' a ""two"" b wait... c -- d - e";
    u "Foo (tm) a (r) b (c) c (1/2) d (1/4) e (3/4) f (o) g (+/-) h"; u "End."] /\
  html_of T0 (sections (map symbols_text C70_paras)) =
  Some (sections [u "<p>Size 30&#215;40 or so,<br>" ++ [10] ++ u "it was &#8217;89 when it&#8217;s was &amp; is at&amp;t is &#8216;one&#8217; a &#8220;two&#8221; b wait&#8230; c &#8212; d &#8211; e</p>";
    u "<p>Foo &#8482; a &#174; b &#169; c &#189; d &#188; e &#190; f &#176; g &#177; h</p>"; u "<p>End.</p>"]).
Proof.
  split; [exact plain_ready|]. split.
  - assert (forall A t, ProofDocument.runs A [au_start A] t = true -> accepts A t) as P by (intros; apply runs_accepts; assumption).
    assert (forall a b w, w <> [] -> forallb (fun c => N.leb a c && N.leb c b)%bool w = true -> w <> [] /\ forall c, In c w -> a <= c <= b) as R.
    { intros a b w Hn Hw. split; auto. intros c Hc. rewrite forallb_forall in Hw. specialize (Hw c Hc). apply Bool.andb_true_iff in Hw as [H1 H2]. apply N.leb_le in H1, H2. auto. }
    intros p Hp. repeat (destruct Hp as [<-|Hp]); [..|destruct Hp]; (split; [apply P; vm_compute; reflexivity|]); cbn [snd]; intros s w Hs;
      repeat (destruct Hs as [Hs|Hs]; [injection Hs as <- <-; split; [|apply P; vm_compute; reflexivity]|]); try destruct Hs; cbn [proper_symbol]; try exact I;
      repeat match goal with |- _ /\ (2 <= _)%nat => split | |- numeral _ /\ numeral _ => split | |- small_word _ /\ small_word _ => split end;
      try (apply R; [discriminate|vm_compute; reflexivity]).
    vm_compute. constructor.
  - split; vm_compute; reflexivity.
Qed.
Example C70_restricted : html_of (set_restricted true T0) (sections (map symbols_text C70_paras)) = html_of T0 (sections (map symbols_text C70_paras)).
Proof. vm_compute. reflexivity. Qed.
