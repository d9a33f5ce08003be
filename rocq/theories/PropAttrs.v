(** C16, C18, C19: attribute lists and attribute specifications. *)
From Verif Require Import Str Unicode Regex ModelBase ModelHtml ModelAttrs SpecAttrs ProofAttrs ProofAttrAdd.

(** ** C16: attribute lists are sorted, unique, last write wins.
    [run_ops] runs a sequence of insertions and class additions from the empty list. *)
Theorem C16_sorted : forall ops, increasing (run_ops ops).
Proof. exact run_ops_increasing. Qed.
Print Assumptions C16_sorted.
Theorem C16_last_write_wins : forall ops k v k' v', In (k', v') (run_ops (ops ++ [OpSet k v])) <->
  (k' = k /\ v' = v) \/ (k' <> k /\ In (k', v') (run_ops ops)).
Proof. exact run_ops_set. Qed.
Print Assumptions C16_last_write_wins.
Theorem C16_class_added : forall ops name k v, In (k, v) (run_ops (ops ++ [OpClass name])) <->
  (css_name (trim name) /\ k = u "class" /\
     ((exists c, In (u "class", c) (run_ops ops) /\ v = c ++ u " " ++ trim name) \/
      ((forall c, ~ In (u "class", c) (run_ops ops)) /\ v = trim name))) \/
  ((~ css_name (trim name) \/ k <> u "class") /\ In (k, v) (run_ops ops)).
Proof. exact run_ops_class. Qed.
Print Assumptions C16_class_added.
Theorem C16_specification_sorted : forall a, increasing (ba_html_attrs a).
Proof. exact spec_increasing. Qed.
Print Assumptions C16_specification_sorted.
Theorem C16_added : forall k v l, increasing l -> increasing (attr_add k (Some v) l) /\
  forall k' v', In (k', v') (attr_add k (Some v) l) <-> (k' = k /\ v' = v) \/ (k' <> k /\ In (k', v') l).
Proof. exact added_value. Qed.
Print Assumptions C16_added.
Example C16_added_example : attr_add (u "start") (Some (u "5")) [(u "class", u "x"); (u "style", u "y")] = [(u "class", u "x"); (u "start", u "5"); (u "style", u "y")].
Proof. vm_compute. reflexivity. Qed.
Example C16_example :
  run_ops [OpSet (u "title") (u "t"); OpSet (u "alt") (u "a"); OpClass (u " x "); OpSet (u "alt") (u "b"); OpClass (u "1y"); OpClass (u "-z")]
  = [(u "alt", u "b"); (u "class", u "x -z"); (u "title", u "t")].
Proof. vm_compute. reflexivity. Qed.

(** ** C18: restricted mode ignores document chosen class, id and style *)
Theorem C18_restricted_specification : forall text el inc s a s' k v,
  block_attributes_parse text el inc true s = Ret a s' -> In (k, v) (ba_html_attrs a) ->
  k <> u "class" /\ k <> u "id" /\
  (k = u "style" -> exists l, l <> [] /\ Forall own_style l /\ v = join (u "; ") l ++ u ";").
Proof. exact restricted_spec. Qed.
Print Assumptions C18_restricted_specification.
Example C18_example : forall s, exists a,
  block_attributes_parse (u "(cls#id){color:red}[en]((=") ElNone true true s = Ret a s /\
  ba_html_attrs a = [(u "lang", u "en"); (u "style", u "padding-left:2em; text-align:center;")].
Proof. intros s. eexists. split; vm_compute; reflexivity. Qed.
Example C18_example_unrestricted : forall s, exists a,
  block_attributes_parse (u "(cls#id){color:red}[en]((=") ElNone true false s = Ret a s /\
  ba_html_attrs a = [(u "class", u "cls"); (u "id", u "id"); (u "lang", u "en");
                     (u "style", u "color:red; padding-left:2em; text-align:center;")].
Proof. intros s. eexists. split; vm_compute; reflexivity. Qed.

(** ** C19: lexical form of class, id, span and width values *)
Theorem C19_attribute_values : forall text el inc restricted s a s' k v,
  block_attributes_parse text el inc restricted s = Ret a s' -> In (k, v) (ba_html_attrs a) ->
  (k = u "class" -> Forall class_char v) /\ (k = u "id" -> Forall id_char v) /\
  (In k (map u ["colspan"; "rowspan"; "span"; "width"]%string) -> decimal_text v) /\
  In k (map u ["class"; "colspan"; "id"; "lang"; "rowspan"; "span"; "style"; "width"]%string).
Proof. exact spec_values. Qed.
Print Assumptions C19_attribute_values.
Example C19_example : forall s, exists a,
  block_attributes_parse (u "\2/3(a b#i.1)") ElTd true false s = Ret a s /\
  ba_html_attrs a = [(u "class", u "a b"); (u "colspan", u "2"); (u "id", u "i.1"); (u "rowspan", u "3")].
Proof. intros s. eexists. split; vm_compute; reflexivity. Qed.
