(** C11-C15, C17, C57, C61: HTML escaping, attributes, character references. *)
From Verif Require Import Str Unicode Regex ModelBase ModelHtml ModelUrl.
From Verif Require Import SpecHtml ProofHtml ProofCharref.

(** ** C11: escaping leaves no markup characters *)
Theorem C11_escaped_text_inert : forall text q l c, In c (encode_html text q l) ->
  c <> 60 /\ c <> 62 /\ (q = true -> c <> 34 /\ c <> 39) /\ (l = true -> c <> 9 /\ c <> 10 /\ c <> 13).
Proof. exact escape_inert. Qed.
Print Assumptions C11_escaped_text_inert.
Theorem C11_ampersands_start_entities : forall text q l a b, encode_html text q l = a ++ 38 :: b ->
  exists e rest, In e known_entities /\ 38 :: b = e ++ rest.
Proof. exact escape_amp. Qed.
Print Assumptions C11_ampersands_start_entities.
Example C11_example : encode_html (u "<a href='x'>&amp;") true false = u "&lt;a href=&#39;x&#39;&gt;&amp;amp;".
Proof. reflexivity. Qed.

(** ** C12: escaping loses nothing.  Full claim: [html_decode (encode_html text q l) = text]
    for all texts; it fails for CR and LF when line spacers are escaped, because their
    entities are exchanged in the source. *)
Theorem C12_decode_partial : forall text q l, (l = true -> ~ In 10 text /\ ~ In 13 text) ->
  html_decode (encode_html text q l) = text.
Proof. exact escape_decode. Qed.
Print Assumptions C12_decode_partial.
Theorem C12_decode_refuted : html_decode (encode_html [10] false true) <> [10].
Proof. exact escape_decode_refuted. Qed.
Print Assumptions C12_decode_refuted.
Theorem C12_injective : forall q l a b, encode_html a q l = encode_html b q l -> a = b.
Proof. exact encode_html_inj. Qed.
Print Assumptions C12_injective.
Example C12_example : html_decode (u "a &lt; b &amp;&#39;c&quot;") = u "a < b &'c""".
Proof. reflexivity. Qed.

(** ** C13: un-escaping a restricted URL.  Full claim: for every URL; it fails exactly
    for the URLs with an ampersand, on which the function panics. *)
Theorem C13_unescape_url_partial : forall url s, ~ In 38 url ->
  reverse_encode_html (encode_html url false false) s = Ret url s.
Proof. exact unescape_url_ok. Qed.
Print Assumptions C13_unescape_url_partial.
Theorem C13_unescape_url_refuted : forall url s, In 38 url ->
  reverse_encode_html (encode_html url false false) s = Panic UnknownEntity.
Proof. exact unescape_url_panics. Qed.
Print Assumptions C13_unescape_url_refuted.
Example C13_example : ~ In 38 (u "http://x/?q=<b>") /\ In 38 (u "http://x/?a=1&b=2") /\
  encode_html (u "http://x/?q=<b>") false false = u "http://x/?q=&lt;b&gt;".
Proof. repeat split; vm_compute; intuition discriminate. Qed.

(** ** C14: attribute values cannot leave their quotes *)
Theorem C14_attribute_quoting : forall v, exists q body,
  quoteattr v = [q] ++ body ++ [q] /\ (q = 34 \/ q = 39) /\ ~ In q body /\
  (forall c, In c body -> c <> 60 /\ c <> 62 /\ c <> 9 /\ c <> 10 /\ c <> 13).
Proof. exact quoteattr_shape. Qed.
Print Assumptions C14_attribute_quoting.
Example C14_example : quoteattr (u "it's ""<x>""") = u """it's &quot;&lt;x&gt;&quot;""" /\
                      quoteattr (u "say ""x""") = u "'say ""x""'".
Proof. split; reflexivity. Qed.

(** ** C15: attribute values keep their meaning.  Full claim: for every value; it fails
    for values with CR or LF (see C12). *)
Theorem C15_attribute_value_partial : forall v, ~ In 10 v -> ~ In 13 v ->
  exists q body, quoteattr v = [q] ++ body ++ [q] /\ ~ In q body /\ html_decode body = v.
Proof. exact attr_value_decode. Qed.
Print Assumptions C15_attribute_value_partial.
Theorem C15_attribute_value_refuted :
  ~ (exists q body, quoteattr [97; 10; 98] = [q] ++ body ++ [q] /\ html_decode body = [97; 10; 98]).
Proof. exact attr_value_refuted. Qed.
Print Assumptions C15_attribute_value_refuted.

(** ** C17: exactly the attributes with valid names, in order, as a tokenizer reads them *)
Theorem C17_attributes_kept : forall l, Forall (fun a => ~ In 10 (snd a) /\ ~ In 13 (snd a)) l ->
  forall l', (exists d, l' = filter d l /\ forall a, d a = true <-> valid_name (fst a)) ->
  attributes_of (join_html_attributes [] l) = Some l'.
Proof. exact attributes_kept. Qed.
Print Assumptions C17_attributes_kept.
Example C17_example :
  attributes_of (join_html_attributes [] [(u "class", u "a ""b"" 'c'"); (u "on click", u "x"); (u "id", u "<&>")])
  = Some [(u "class", u "a ""b"" 'c'"); (u "id", u "<&>")].
Proof. vm_compute. reflexivity. Qed.

(** ** C57: numeric character references *)
Theorem C57_decimal_references : forall a w b s, ~ In 38 a -> ~ In 38 b -> digit_text w ->
  (dec_value w <= 4294967295 -> exists x, num_ref (dec_value w) x /\
     unescape (a ++ (u "&#" ++ w ++ u ";") ++ b) s = Ret (a ++ x ++ b) s) /\
  (4294967295 < dec_value w -> unescape (a ++ (u "&#" ++ w ++ u ";") ++ b) s = Panic BadNumber).
Proof. exact charref_dec_prop. Qed.
Print Assumptions C57_decimal_references.
Theorem C57_hexadecimal_references : forall a x w b s, ~ In 38 a -> ~ In 38 b -> x = 120 \/ x = 88 -> hex_text w ->
  (hex_num w <= 4294967295 -> exists y, num_ref (hex_num w) y /\
     unescape (a ++ (u "&#" ++ [x] ++ w ++ u ";") ++ b) s = Ret (a ++ y ++ b) s) /\
  (4294967295 < hex_num w -> unescape (a ++ (u "&#" ++ [x] ++ w ++ u ";") ++ b) s = Panic BadNumber).
Proof. exact charref_hex_prop. Qed.
Print Assumptions C57_hexadecimal_references.
Example C57_example : digit_text (u "150") /\ dec_value (u "150") = 150 /\ num_ref 150 [8211] /\
  (exists s, unescape (u "a&#150;b") s = Ret (u "a" ++ [8211] ++ u "b") s) /\
  dec_value (u "4294967296") = 4294967296.
Proof.
  repeat split; try discriminate; try reflexivity.
  - vm_compute. repeat constructor; discriminate.
  - apply (NR_win 150). split; discriminate.
  - exists (new_state []). vm_compute. reflexivity.
Qed.

(** ** C61: percent-encoding of rejected URLs *)
Theorem C61_rejected_url_inert : forall W url, Forall (fun c => c < 1114112) url ->
  w_parse W url = None -> w_join W url = None ->
  (w_join W (percent_encode url) <> None ->
     pct_decode (url_to_string (url_parse W url)) = Some (flat_map utf8_bytes url)) /\
  (w_join W (percent_encode url) = None -> url_to_string (url_parse W url) = []) /\
  (forall c, In c (url_to_string (url_parse W url)) ->
     48 <= c <= 57 \/ 65 <= c <= 90 \/ 97 <= c <= 122 \/ c = 37).
Proof. exact url_fallback_prop. Qed.
Print Assumptions C61_rejected_url_inert.
Example C61_example :
  let W := mk_world (fun _ => None) (fun s => if contains_char 58 s then None else Some s) (fun _ => false)
                    (fun _ _ _ => None) (fun _ => None) in
  w_parse W (u "a b:c") = None /\ w_join W (u "a b:c") = None /\
  url_to_string (url_parse W (u "a b:c")) = u "a%20b%3Ac".
Proof. vm_compute. repeat split. Qed.
