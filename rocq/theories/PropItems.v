(** Attribute specifications mean what they say. *)
From Verif Require Import Str Unicode Regex ModelBase ModelHtml ModelAttrs SpecAtts ProofItemsTop.

(** A specification that is a sequence of items, no two of one kind, gives exactly the
    attributes the items stand for; nothing else of the parser's state changes. *)
Theorem C66_attribute_items el restricted l with_id s :
  el <> ElCol -> items_ok el restricted l ->
  exists a, block_attributes_parse (items_text l) el with_id restricted s = Ret a s /\
            ba_html_attrs a = meant el with_id restricted l.
Proof. exact (parse_items el restricted l with_id s). Qed.
Print Assumptions C66_attribute_items.
Definition C66_items : list item :=
  [VAlign Top; PadLeft 2; ClassId (u "big red") (Some (u "x:1")); PadRight 1; Style [u "color: red "; u " margin:0"] 2; Lang (u "en-GB"); HAlign Justify; ColSpan 12; RowSpan 3].
Example C66_example : items_ok ElTd false C66_items /\
  items_text C66_items = u "^((" ++ u "(big red#x:1)" ++ u ")" ++ u "{color: red ; margin:0;;}[en-GB]<>\12/3" /\
  meant ElTd true false C66_items =
    [(u "class", u "big red"); (u "colspan", u "12"); (u "id", u "x:1"); (u "lang", u "en-GB"); (u "rowspan", u "3");
     (u "style", u "vertical-align:top; color: red; margin:0; padding-left:2em; padding-right:1em; text-align:justify;")] /\
  meant ElTr true true C66_items =
    [(u "lang", u "en-GB"); (u "style", u "vertical-align:top; padding-left:2em; padding-right:1em; text-align:justify;")].
Proof.
  split; [|split; [|split]; vm_compute; reflexivity].
  assert (forall cs t, forallb (fun c => negb (existsb (N.eqb c) t)) cs = true -> without cs t) as W.
  { intros cs t H c Hc F. rewrite forallb_forall in H. specialize (H c Hc). apply negb_true_iff in H. assert (existsb (N.eqb c) t = true) as E by (apply existsb_exists; exists c; split; [exact F|apply N.eqb_refl]). congruence. }
  assert (forall cs t, forallb (fun c => existsb (N.eqb c) cs) t = true -> forall c, In c t -> In c cs) as I.
  { intros cs t H c Hc. rewrite forallb_forall in H. specialize (H c Hc). apply existsb_exists in H as (d & Hd & E). apply N.eqb_eq in E as ->. exact Hd. }
  split; [|split].
  - cbn. repeat (constructor; [cbn; intuition discriminate|]). constructor.
  - intros x Hx. repeat (destruct Hx as [<-|Hx]); [..|destruct Hx]; cbn [item_ok]; auto; try lia.
    + split; [right; discriminate|]. split; [apply I; vm_compute; reflexivity|]. split; [intros s E; injection E as <-; apply I; vm_compute; reflexivity|]. intros _ F. vm_compute in F. intuition discriminate.
    + split; [discriminate|]. split; [exists [u "color: red "], (u " margin:0"); split; [reflexivity|discriminate]|]. intros d Hd. repeat (destruct Hd as [<-|Hd]); [..|destruct Hd].
      * split; [apply W; vm_compute; reflexivity|]. split; [intros _; apply W; vm_compute; reflexivity|discriminate].
      * split; [apply W; vm_compute; reflexivity|]. split; [intros _; apply W; vm_compute; reflexivity|discriminate].
    + split; [discriminate|]. split; [apply W; vm_compute; reflexivity|]. intros _. apply W. vm_compute. reflexivity.
  - intros a n mid m b E. cbn [filter kept C66_items] in E. destruct a as [|x [|y a]]; cbn [app] in E.
    + discriminate E.
    + injection E as _ _ E. right. destruct mid as [|z mid]; [discriminate E|]. injection E as <- _. eexists. eexists. left. reflexivity.
    + exfalso. injection E as _ _ E. assert (In (PadLeft n) (a ++ PadLeft n :: mid ++ PadRight m :: b)) as F by (apply in_or_app; right; left; reflexivity). rewrite <- E in F. cbn [In] in F. intuition discriminate.
Qed.
(** The specification of a heading cell. *)
Example C66_cell s : items_ok ElTd true [Heading; ColSpan 2; HAlign Center; Stop] /\ items_text [Heading; ColSpan 2; HAlign Center; Stop] = u "_\2=. " /\
  (forall h, match block_attributes_parse (u "_\2=. ") ElTd true true s with Ret a _ => ba_html_attrs a | _ => h end = [(u "colspan", u "2"); (u "style", u "text-align:center;")]).
Proof.
  split; [|split; [|intros h]; vm_compute; reflexivity]. split; [|split].
  - cbn. repeat (constructor; [cbn; intuition discriminate|]). constructor.
  - intros x Hx. repeat (destruct Hx as [<-|Hx]); [..|destruct Hx]; cbn [item_ok]; auto.
  - intros a n mid m b E. exfalso. cbn [filter kept] in E. assert (In (PadLeft n) (a ++ PadLeft n :: mid ++ PadRight m :: b)) as F by (apply in_or_app; right; left; reflexivity). rewrite <- E in F. cbn [In] in F. intuition discriminate.
Qed.
(** Marks inside of declarations and classes are not kept apart: in a cell the slashes are
    spans, and parentheses around an alignment are a class. *)
Example C66_limits s :
  (forall h, match block_attributes_parse (u "{a:1px/2px}") ElTd true false s with Ret a _ => ba_html_attrs a | _ => h end =
    [(u "rowspan", u "2"); (u "style", u "a:1px/2px;")]) /\
  (forall h, match block_attributes_parse (u "(<)") ElNone true false s with Ret a _ => ba_html_attrs a | _ => h end = []) /\
  (forall h, match block_attributes_parse (u "<(c)>") ElNone true false s with Ret a _ => ba_html_attrs a | _ => h end =
    [(u "class", u "c"); (u "style", u "text-align:justify;")]).
Proof. split; [|split]; intros h; vm_compute; reflexivity. Qed.
