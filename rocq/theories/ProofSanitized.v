(** The sanitizer is used at the end only. *)
From Coq Require Import ZArith.
From Verif Require Import Str Unicode Regex RegexParse RegexSnips ModelBase ModelHtml ModelUrl ModelAttrs ModelInline ModelParser RegexTheory Lib ProofParse ProofTags ProofRegex SpecSanitized.

Lemma k_br_tag v T : br_tag (with_sanitizer v T) = br_tag T.
Proof. unfold br_tag. reflexivity. Qed.
Lemma k_allowed_schemes v T : allowed_schemes (with_sanitizer v T) = allowed_schemes T.
Proof. unfold allowed_schemes. reflexivity. Qed.
Lemma k_shelve v T : shelve (with_sanitizer v T) = shelve T.
Proof. unfold shelve. reflexivity. Qed.
Lemma k_shelve_url W v T : shelve_url W (with_sanitizer v T) = shelve_url W T.
Proof. unfold shelve_url. reflexivity. Qed.
Lemma k_retrieve_urls W v T : retrieve_urls W (with_sanitizer v T) = retrieve_urls W T.
Proof. unfold retrieve_urls. reflexivity. Qed.
Lemma k_f_textile v T : f_textile (with_sanitizer v T) = f_textile T.
Proof. unfold f_textile. rewrite ?k_shelve. reflexivity. Qed.
Lemma k_no_textile v T : no_textile (with_sanitizer v T) = no_textile T.
Proof. unfold no_textile. rewrite ?k_f_textile. reflexivity. Qed.
Lemma k_f_code v T : f_code (with_sanitizer v T) = f_code T.
Proof. unfold f_code. rewrite ?k_shelve. reflexivity. Qed.
Lemma k_f_pre v T : f_pre (with_sanitizer v T) = f_pre T.
Proof. unfold f_pre. rewrite ?k_shelve. reflexivity. Qed.
Lemma k_code v T : code (with_sanitizer v T) = code T.
Proof. unfold code. rewrite ?k_f_code. rewrite ?k_f_pre. reflexivity. Qed.
Lemma k_f_comment v T : f_comment (with_sanitizer v T) = f_comment T.
Proof. unfold f_comment. rewrite ?k_shelve. reflexivity. Qed.
Lemma k_get_html_comments v T : get_html_comments (with_sanitizer v T) = get_html_comments T.
Proof. unfold get_html_comments. rewrite ?k_f_comment. reflexivity. Qed.
Lemma k_unrestrict_url v T : unrestrict_url (with_sanitizer v T) = unrestrict_url T.
Proof. unfold unrestrict_url. reflexivity. Qed.
Lemma k_f_ref v T : f_ref (with_sanitizer v T) = f_ref T.
Proof. unfold f_ref. rewrite ?k_unrestrict_url. reflexivity. Qed.
Lemma k_get_refs v T : get_refs (with_sanitizer v T) = get_refs T.
Proof. unfold get_refs. rewrite ?k_f_ref. reflexivity. Qed.
Lemma k_scheme_allowed v T : scheme_allowed (with_sanitizer v T) = scheme_allowed T.
Proof. unfold scheme_allowed. rewrite ?k_allowed_schemes. reflexivity. Qed.
Lemma k_is_valid_url W v T : is_valid_url W (with_sanitizer v T) = is_valid_url W T.
Proof. unfold is_valid_url. rewrite ?k_scheme_allowed. reflexivity. Qed.
Lemma k_use_align_class v T : use_align_class (with_sanitizer v T) = use_align_class T.
Proof. unfold use_align_class. reflexivity. Qed.
Lemma k_f_image W v T : f_image W (with_sanitizer v T) = f_image W T.
Proof. unfold f_image. rewrite ?k_shelve. rewrite ?k_shelve_url. rewrite ?k_unrestrict_url. rewrite ?k_is_valid_url. rewrite ?k_use_align_class. reflexivity. Qed.
Lemma k_image W v T : image W (with_sanitizer v T) = image W T.
Proof. unfold image. rewrite ?k_f_image. reflexivity. Qed.
Lemma k_all_replacers v T : all_replacers (with_sanitizer v T) = all_replacers T.
Proof. unfold all_replacers. reflexivity. Qed.
Lemma k_glyph_chunk v T : glyph_chunk (with_sanitizer v T) = glyph_chunk T.
Proof. unfold glyph_chunk. rewrite ?k_all_replacers. reflexivity. Qed.
Lemma k_glyph_chunks v T : glyph_chunks (with_sanitizer v T) = glyph_chunks T.
Proof. unfold glyph_chunks. rewrite ?k_glyph_chunk. reflexivity. Qed.
Lemma k_glyphs v T : glyphs (with_sanitizer v T) = glyphs T.
Proof. unfold glyphs. rewrite ?k_glyph_chunks. reflexivity. Qed.
Lemma k_f_glyph_quoted_quote v T : f_glyph_quoted_quote (with_sanitizer v T) = f_glyph_quoted_quote T.
Proof. unfold f_glyph_quoted_quote. rewrite ?k_shelve. rewrite ?k_glyphs. reflexivity. Qed.
Lemma k_glyph_quoted_quote v T : glyph_quoted_quote (with_sanitizer v T) = glyph_quoted_quote T.
Proof. unfold glyph_quoted_quote. rewrite ?k_f_glyph_quoted_quote. reflexivity. Qed.
Lemma k_store_tags v T : store_tags (with_sanitizer v T) = store_tags T.
Proof. unfold store_tags. reflexivity. Qed.
Lemma k_f_span v T : f_span (with_sanitizer v T) = f_span T.
Proof. unfold f_span. rewrite ?k_store_tags. reflexivity. Qed.
Lemma k_span_n v T : span_n (with_sanitizer v T) = span_n T.
Proof. unfold span_n. rewrite ?k_f_span. reflexivity. Qed.
Lemma k_span v T : span (with_sanitizer v T) = span T.
Proof. unfold span. rewrite ?k_span_n. reflexivity. Qed.
Lemma k_retrieve_tags v T : retrieve_tags (with_sanitizer v T) = retrieve_tags T.
Proof. unfold retrieve_tags. reflexivity. Qed.
Lemma k_mark_slice fuel v T : mark_slice (with_sanitizer v T) fuel = mark_slice T fuel.
Proof. unfold mark_slice. reflexivity. Qed.
Lemma k_mark_start_of_links fuel v T : mark_start_of_links (with_sanitizer v T) fuel = mark_start_of_links T fuel.
Proof. unfold mark_start_of_links. rewrite ?k_mark_slice. reflexivity. Qed.
Lemma k_f_link W v T : f_link W (with_sanitizer v T) = f_link W T.
Proof. unfold f_link. rewrite ?k_br_tag. rewrite ?k_shelve. rewrite ?k_shelve_url. rewrite ?k_unrestrict_url. rewrite ?k_scheme_allowed. rewrite ?k_image. rewrite ?k_glyphs. rewrite ?k_span. reflexivity. Qed.
Lemma k_link_loop W v T : link_loop W (with_sanitizer v T) = link_loop W T.
Proof. unfold link_loop. rewrite ?k_f_link. reflexivity. Qed.
Lemma k_replace_links W fuel v T : replace_links W (with_sanitizer v T) fuel = replace_links W T fuel.
Proof. unfold replace_links. rewrite ?k_link_loop. reflexivity. Qed.
Lemma k_links W fuel v T : links W (with_sanitizer v T) fuel = links W T fuel.
Proof. unfold links. rewrite ?k_mark_start_of_links. rewrite ?k_replace_links. reflexivity. Qed.
Lemma k_f_tag_br v T : f_tag_br (with_sanitizer v T) = f_tag_br T.
Proof. unfold f_tag_br. rewrite ?k_br_tag. reflexivity. Qed.
Lemma k_do_tag_br v T : do_tag_br (with_sanitizer v T) = do_tag_br T.
Proof. unfold do_tag_br. rewrite ?k_f_tag_br. reflexivity. Qed.
Lemma k_f_p_br v T : f_p_br (with_sanitizer v T) = f_p_br T.
Proof. unfold f_p_br. rewrite ?k_br_tag. reflexivity. Qed.
Lemma k_do_p_br v T : do_p_br (with_sanitizer v T) = do_p_br T.
Proof. unfold do_p_br. rewrite ?k_f_p_br. reflexivity. Qed.
Lemma k_new_id v T : new_id (with_sanitizer v T) = new_id T.
Proof. unfold new_id. reflexivity. Qed.
Lemma k_f_footnote_id v T : f_footnote_id (with_sanitizer v T) = f_footnote_id T.
Proof. unfold f_footnote_id. rewrite ?k_new_id. reflexivity. Qed.
Lemma k_footnote_ref v T : footnote_ref (with_sanitizer v T) = footnote_ref T.
Proof. unfold footnote_ref. rewrite ?k_f_footnote_id. reflexivity. Qed.
Lemma k_f_parse_note_refs v T : f_parse_note_refs (with_sanitizer v T) = f_parse_note_refs T.
Proof. unfold f_parse_note_refs. rewrite ?k_new_id. reflexivity. Qed.
Lemma k_note_ref v T : note_ref (with_sanitizer v T) = note_ref T.
Proof. unfold note_ref. rewrite ?k_f_parse_note_refs. reflexivity. Qed.
Lemma k_f_note_lists v T : f_note_lists (with_sanitizer v T) = f_note_lists T.
Proof. unfold f_note_lists. reflexivity. Qed.
Lemma k_place_note_lists v T : place_note_lists (with_sanitizer v T) = place_note_lists T.
Proof. unfold place_note_lists. rewrite ?k_f_note_lists. reflexivity. Qed.
Lemma k_list_line v T : list_line (with_sanitizer v T) = list_line T.
Proof. unfold list_line. reflexivity. Qed.
Lemma k_list_lines v T : list_lines (with_sanitizer v T) = list_lines T.
Proof. unfold list_lines. rewrite ?k_list_line. reflexivity. Qed.
Lemma k_f_textile_list v T : f_textile_list (with_sanitizer v T) = f_textile_list T.
Proof. unfold f_textile_list. rewrite ?k_do_tag_br. rewrite ?k_list_lines. reflexivity. Qed.
Lemma k_textile_lists v T : textile_lists (with_sanitizer v T) = textile_lists T.
Proof. unfold textile_lists. rewrite ?k_f_textile_list. reflexivity. Qed.
Lemma k_rc_line graf v T : rc_line (with_sanitizer v T) graf = rc_line T graf.
Proof. unfold rc_line. rewrite ?k_br_tag. reflexivity. Qed.
Lemma k_f_rc_list graf v T : f_rc_list (with_sanitizer v T) graf = f_rc_list T graf.
Proof. unfold f_rc_list. rewrite ?k_rc_line. reflexivity. Qed.
Lemma k_redcloth_list graf v T : redcloth_list (with_sanitizer v T) graf = redcloth_list T graf.
Proof. unfold redcloth_list. rewrite ?k_f_rc_list. reflexivity. Qed.
Lemma k_process_caption v T : process_caption (with_sanitizer v T) = process_caption T.
Proof. unfold process_caption. reflexivity. Qed.
Lemma k_col_tags v T : col_tags (with_sanitizer v T) = col_tags T.
Proof. unfold col_tags. reflexivity. Qed.
Lemma k_table_cell graf v T : table_cell (with_sanitizer v T) graf = table_cell T graf.
Proof. unfold table_cell. rewrite ?k_do_tag_br. rewrite ?k_textile_lists. rewrite ?k_redcloth_list. reflexivity. Qed.
Lemma k_row_caption v T : row_caption (with_sanitizer v T) = row_caption T.
Proof. unfold row_caption. rewrite ?k_process_caption. reflexivity. Qed.
Lemma k_row_colgroup v T : row_colgroup (with_sanitizer v T) = row_colgroup T.
Proof. unfold row_colgroup. rewrite ?k_col_tags. reflexivity. Qed.
Lemma k_row_group v T : row_group (with_sanitizer v T) = row_group T.
Proof. unfold row_group. reflexivity. Qed.
Lemma k_table_row graf v T : table_row (with_sanitizer v T) graf = table_row T graf.
Proof. unfold table_row. rewrite ?k_table_cell. rewrite ?k_row_caption. rewrite ?k_row_colgroup. rewrite ?k_row_group. reflexivity. Qed.
Lemma k_table_rows graf v T : table_rows (with_sanitizer v T) graf = table_rows T graf.
Proof. unfold table_rows. rewrite ?k_table_row. reflexivity. Qed.
Lemma k_process_table graf v T : process_table (with_sanitizer v T) graf = process_table T graf.
Proof. unfold process_table. rewrite ?k_table_rows. reflexivity. Qed.
Lemma k_table graf v T : table (with_sanitizer v T) graf = table T graf.
Proof. unfold table. rewrite ?k_process_table. reflexivity. Qed.
Lemma k_parse_note_defs graf v T : parse_note_defs (with_sanitizer v T) graf = parse_note_defs T graf.
Proof. unfold parse_note_defs. rewrite ?k_new_id. reflexivity. Qed.
Lemma k_block_footnote v T : block_footnote (with_sanitizer v T) = block_footnote T.
Proof. unfold block_footnote. rewrite ?k_new_id. reflexivity. Qed.
Lemma k_block_shape W v T : block_shape W (with_sanitizer v T) = block_shape W T.
Proof. unfold block_shape. rewrite ?k_shelve. rewrite ?k_shelve_url. rewrite ?k_unrestrict_url. reflexivity. Qed.
Lemma k_block_new W graf v T : block_new W (with_sanitizer v T) graf = block_new W T graf.
Proof. unfold block_new. rewrite ?k_parse_note_defs. rewrite ?k_block_footnote. rewrite ?k_block_shape. reflexivity. Qed.
Lemma k_anonymous_block W graf v T : anonymous_block W (with_sanitizer v T) graf = anonymous_block W T graf.
Proof. unfold anonymous_block. rewrite ?k_shelve. rewrite ?k_block_new. reflexivity. Qed.
Lemma k_block_step W graf v T : block_step W (with_sanitizer v T) graf = block_step W T graf.
Proof. unfold block_step. rewrite ?k_br_tag. rewrite ?k_do_p_br. rewrite ?k_block_new. rewrite ?k_anonymous_block. reflexivity. Qed.
Lemma k_block W graf v T : block W (with_sanitizer v T) graf = block W T graf.
Proof. unfold block. rewrite ?k_block_step. reflexivity. Qed.
Lemma k_graf_body W fuel graf v T : graf_body W (with_sanitizer v T) fuel graf = graf_body W T fuel graf.
Proof. unfold graf_body. rewrite ?k_no_textile. rewrite ?k_code. rewrite ?k_get_html_comments. rewrite ?k_get_refs. rewrite ?k_image. rewrite ?k_glyphs. rewrite ?k_glyph_quoted_quote. rewrite ?k_span. rewrite ?k_links. rewrite ?k_footnote_ref. rewrite ?k_note_ref. rewrite ?k_textile_lists. rewrite ?k_redcloth_list. rewrite ?k_table. reflexivity. Qed.
Lemma k_graf_n W fuel v T : graf_n W (with_sanitizer v T) fuel = graf_n W T fuel.
Proof. unfold graf_n. rewrite ?k_graf_body. reflexivity. Qed.
Lemma k_graf W fuel v T : graf W (with_sanitizer v T) fuel = graf W T fuel.
Proof. unfold graf. rewrite ?k_graf_n. reflexivity. Qed.
Lemma k_final_br v T : final_br (with_sanitizer v T) = final_br T.
Proof. unfold final_br. reflexivity. Qed.
Lemma k_prepare v T : prepare (with_sanitizer v T) = prepare T.
Proof. unfold prepare. reflexivity. Qed.

Local Arguments u : simpl never.
Definition unclean (W : world) (T : textile) (fuel : nat) (text : str) : M str :=
  let text := prepare T text in
  text <- (if t_block_tags T then
             text <- block W T (graf W T fuel) text ;;
             place_note_lists T text
           else
             text <- glyph_quoted_quote T (text ++ nl ++ nl) ;;
             text <- span T text ;;
             glyphs T text) ;;
  text <- retrieve fuel text ;;
  let text := replace_str text (t_uid T ++ u ":glyph:") [] in
  text <- retrieve_tags T text ;;
  retrieve_urls W T text.
Lemma unclean_same W fuel f T text s : unclean W (with_sanitizer f T) fuel text s = unclean W T fuel text s.
Proof. unfold unclean. rewrite ?k_retrieve_urls. rewrite ?k_glyphs. rewrite ?k_glyph_quoted_quote. rewrite ?k_span. rewrite ?k_retrieve_tags. rewrite ?k_place_note_lists. rewrite ?k_block. rewrite ?k_graf. rewrite ?k_prepare. reflexivity. Qed.

(** *** Break tags *)
Notation B := (rx_re BR_PATTERN).
Lemma nlook_newline before r cs : m (RNLook (RCls (one 10))) (mk_mst before r cs) Some = if on_new_line r then None else Some (mk_mst before r cs).
Proof. rewrite m_nlook. destruct r as [|c r]; [rewrite m_cls_nil; reflexivity|]. rewrite m_cls, in_one. cbn [on_new_line]. destruct (c =? 10); reflexivity. Qed.
Lemma break_shape t : break_at t = if starts_with [60; 98; 114; 62] t then Some (skipn 4 t) else if starts_with [60; 98; 114; 32; 47; 62] t then Some (skipn 6 t) else None.
Proof. reflexivity. Qed.
Lemma br_at before t : match break_at t with
  | Some r => if on_new_line r then match_at B before t = None else exists s, match_at B before t = Some s /\ m_after s = r
  | None => match_at B before t = None
  end.
Proof.
  rewrite break_shape. unfold match_at. rewrite br_pattern_shape.
  destruct t as [|a t]; [reflexivity|]. cbn [starts_with]. rewrite m_seq, m_cls, in_one, (N.eqb_sym a 60). destruct (60 =? a); [|reflexivity].
  destruct t as [|b t]; [reflexivity|]. rewrite m_seq, m_cls, in_one, (N.eqb_sym b 98). destruct (98 =? b); [|reflexivity].
  destruct t as [|c t]; [reflexivity|]. rewrite m_seq, m_cls, in_one, (N.eqb_sym c 114). destruct (114 =? c); [|reflexivity]. cbn [andb].
  rewrite m_seq, m_alt, m_group, m_seq. destruct t as [|d t]; [reflexivity|]. rewrite m_cls, in_one. destruct (N.eqb_spec 62 d) as [<-|Hd].
  - cbn [N.eqb Pos.eqb andb skipn]. rewrite m_eps, m_seq, m_cls, in_one. cbn [N.eqb Pos.eqb]. rewrite nlook_newline. destruct (on_new_line t); [reflexivity|]. eexists. split; reflexivity.
  - cbn [andb]. assert (E0 : forall cs k, m (RSeq (RCls (one 62)) (RNLook (RCls (one 10)))) (mk_mst (c :: b :: a :: before) (d :: t) cs) k = None).
    { intros cs k. rewrite m_seq, m_cls, in_one. destruct (N.eqb_spec d 62); [congruence|reflexivity]. }
    rewrite m_eps, E0. rewrite (N.eqb_sym d 32). destruct (32 =? d); [|reflexivity]. destruct t as [|e t]; [reflexivity|]. rewrite m_cls, in_one, (N.eqb_sym e 47). destruct (47 =? e); [|reflexivity]. cbn [m_before m_after m_caps].
    rewrite m_seq. destruct t as [|f t]; [reflexivity|]. rewrite m_cls, in_one, (N.eqb_sym f 62). destruct (62 =? f); [|reflexivity]. cbn [andb skipn]. rewrite nlook_newline. destruct (on_new_line t); [reflexivity|]. eexists. split; reflexivity.
Qed.
Lemma break_split t r : break_at t = Some r -> exists w, w <> [] /\ t = w ++ r.
Proof.
  rewrite break_shape. assert (S : forall w, starts_with w t = true -> t = w ++ skipn (List.length w) t).
  { intros w. revert t. induction w as [|x w IH]; intros [|y t]; cbn; try reflexivity; try discriminate. destruct (N.eqb_spec x y) as [->|]; [|discriminate]. cbn [andb]. intros H. f_equal. apply IH, H. }
  destruct (starts_with [60; 98; 114; 62] t) eqn:E1; [intros H; injection H as <-; exists [60; 98; 114; 62]; split; [discriminate|apply (S _ E1)]|].
  destruct (starts_with [60; 98; 114; 32; 47; 62] t) eqn:E2; [|discriminate]. intros H. injection H as <-. exists [60; 98; 114; 32; 47; 62]. split; [discriminate|apply (S _ E2)].
Qed.
Lemma breaks_replaced tag : forall n t before last, (List.length t <= n)%nat ->
  flat_map (fun g => match g with Lit c => [c] | Hit _ => tag ++ [10] end) (scan B before t O last) = broken n tag t.
Proof.
  induction n as [|n IH]; intros t before last Hn.
  { destruct t; [|cbn in Hn; lia]. rewrite scan_nil. destruct last; reflexivity. }
  destruct t as [|c t]; [rewrite scan_nil; destruct last; reflexivity|]. cbn [broken]. pose proof (br_at before (c :: t)) as Q.
  assert (Nx : match_at B before (c :: t) = None -> flat_map (fun g => match g with Lit c => [c] | Hit _ => tag ++ [10] end) (scan B before (c :: t) 0 last) = c :: broken n tag t).
  { intros M. rewrite scan_cons, M. cbn [flat_map app]. f_equal. apply IH. cbn in Hn. lia. }
  destruct (break_at (c :: t)) as [r|] eqn:E; [|apply Nx; exact Q]. destruct (on_new_line r); [apply Nx; exact Q|]. destruct Q as (s & M & Ea). destruct (break_split _ _ E) as (w & Hw & Ew). rewrite Ew in M |- *.
  rewrite (scan_take _ _ w r s) by auto. cbn [flat_map]. rewrite IH.
  - rewrite <- !app_assoc. reflexivity.
  - apply (f_equal (@List.length N)) in Ew. rewrite app_length in Ew. destruct w; [congruence|]. cbn in Ew, Hn. lia.
Qed.
Lemma drop_is t : trim_end_matches 10 t = drop_newlines t.
Proof.
  unfold trim_end_matches, trim_end_by. assert (G : forall a, trim_start_by (N.eqb 10) (rev a) = rev (drop_newlines a)); [|rewrite G, rev_involutive; reflexivity].
  assert (K : forall x y, trim_start_by (N.eqb 10) (x ++ y) = match trim_start_by (N.eqb 10) x with [] => trim_start_by (N.eqb 10) y | z => z ++ y end).
  { induction x as [|d x IH]; intros y; [reflexivity|]. cbn [app trim_start_by]. destruct (10 =? d); [apply IH|reflexivity]. }
  induction a as [|c a IH]; [reflexivity|]. cbn [rev]. rewrite K, IH. cbn [drop_newlines]. destruct (drop_newlines a) as [|x d] eqn:E.
  - cbn [rev trim_start_by]. rewrite (N.eqb_sym 10 c). destruct (c =? 10); reflexivity.
  - destruct (rev (x :: d)) as [|y z] eqn:F; [apply (f_equal (@List.length N)) in F; rewrite rev_length in F; discriminate|]. rewrite <- F. cbn [rev]. reflexivity.
Qed.
Lemma finish_is f T t : finish (with_sanitizer f T) t = tidied T (clean_by f t).
Proof.
  unfold finish, tidied. cbn [t_sanitize with_sanitizer]. fold (clean_by f t). rewrite drop_is. f_equal. unfold replace_all, segs. rewrite <- (breaks_replaced _ _ _ [] false (le_n _)). unfold final_br. cbn [t_html with_sanitizer]. unfold break_tag. destruct (t_html T); reflexivity.
Qed.
Lemma parse_unclean W T fuel text s : parse_m W T fuel text s = if is_empty (trim text) then Ret text s else map_res (finish T) (unclean W T fuel text s).
Proof.
  unfold parse_m, unclean. destruct (is_empty (trim text)); [reflexivity|]. unfold bind. cbv beta zeta. 
  repeat match goal with |- context [match ?x with Ret _ _ => _ | Panic p => Panic p | Diverge => Diverge end] => destruct x end; reflexivity.
Qed.
Lemma sanitized W T fuel c text : is_empty (trim text) = false -> exists r, forall f, parse W (with_sanitizer f T) fuel c text = map_res (fun x => tidied T (clean_by f x)) r.
Proof.
  intros H. exists (unclean W T fuel text (new_state c)). intros f. unfold parse. rewrite parse_unclean, H, unclean_same. destruct (unclean W T fuel text (new_state c)) as [x s|p|]; cbn [map_res]; [rewrite finish_is|..]; reflexivity.
Qed.
Lemma no_breaks T x : (forall a b, x = a ++ b -> break_at b = None) -> tidied T x = drop_newlines x.
Proof.
  unfold tidied. intros H. f_equal. generalize (le_n (List.length x)). generalize (List.length x) at 2 3 as n. intros n. revert x H. induction n as [|n IH]; intros x H Hn; [destruct x; [reflexivity|cbn in Hn; lia]|].
  destruct x as [|c x]; [reflexivity|]. cbn [broken]. rewrite (H [] (c :: x) eq_refl). f_equal. apply IH; [|cbn in Hn; lia]. intros a b E. apply (H (c :: a) b). rewrite E. reflexivity.
Qed.
