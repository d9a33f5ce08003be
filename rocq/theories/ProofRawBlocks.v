(** [raw_block] is read by no function of the parser. *)
From Coq Require Import ZArith.
From Verif Require Import Str Unicode Regex RegexParse RegexSnips ModelBase ModelHtml ModelUrl ModelAttrs ModelInline ModelParser.

Lemma k_br_tag v T : br_tag (set_raw_blocks v T) = br_tag T.
Proof. unfold br_tag. reflexivity. Qed.
Lemma k_allowed_schemes v T : allowed_schemes (set_raw_blocks v T) = allowed_schemes T.
Proof. unfold allowed_schemes. reflexivity. Qed.
Lemma k_shelve v T : shelve (set_raw_blocks v T) = shelve T.
Proof. unfold shelve. reflexivity. Qed.
Lemma k_shelve_url W v T : shelve_url W (set_raw_blocks v T) = shelve_url W T.
Proof. unfold shelve_url. reflexivity. Qed.
Lemma k_retrieve_urls W v T : retrieve_urls W (set_raw_blocks v T) = retrieve_urls W T.
Proof. unfold retrieve_urls. reflexivity. Qed.
Lemma k_f_textile v T : f_textile (set_raw_blocks v T) = f_textile T.
Proof. unfold f_textile. rewrite ?k_shelve. reflexivity. Qed.
Lemma k_no_textile v T : no_textile (set_raw_blocks v T) = no_textile T.
Proof. unfold no_textile. rewrite ?k_f_textile. reflexivity. Qed.
Lemma k_f_code v T : f_code (set_raw_blocks v T) = f_code T.
Proof. unfold f_code. rewrite ?k_shelve. reflexivity. Qed.
Lemma k_f_pre v T : f_pre (set_raw_blocks v T) = f_pre T.
Proof. unfold f_pre. rewrite ?k_shelve. reflexivity. Qed.
Lemma k_code v T : code (set_raw_blocks v T) = code T.
Proof. unfold code. rewrite ?k_f_code. rewrite ?k_f_pre. reflexivity. Qed.
Lemma k_f_comment v T : f_comment (set_raw_blocks v T) = f_comment T.
Proof. unfold f_comment. rewrite ?k_shelve. reflexivity. Qed.
Lemma k_get_html_comments v T : get_html_comments (set_raw_blocks v T) = get_html_comments T.
Proof. unfold get_html_comments. rewrite ?k_f_comment. reflexivity. Qed.
Lemma k_unrestrict_url v T : unrestrict_url (set_raw_blocks v T) = unrestrict_url T.
Proof. unfold unrestrict_url. reflexivity. Qed.
Lemma k_f_ref v T : f_ref (set_raw_blocks v T) = f_ref T.
Proof. unfold f_ref. rewrite ?k_unrestrict_url. reflexivity. Qed.
Lemma k_get_refs v T : get_refs (set_raw_blocks v T) = get_refs T.
Proof. unfold get_refs. rewrite ?k_f_ref. reflexivity. Qed.
Lemma k_scheme_allowed v T : scheme_allowed (set_raw_blocks v T) = scheme_allowed T.
Proof. unfold scheme_allowed. rewrite ?k_allowed_schemes. reflexivity. Qed.
Lemma k_is_valid_url W v T : is_valid_url W (set_raw_blocks v T) = is_valid_url W T.
Proof. unfold is_valid_url. rewrite ?k_scheme_allowed. reflexivity. Qed.
Lemma k_use_align_class v T : use_align_class (set_raw_blocks v T) = use_align_class T.
Proof. unfold use_align_class. reflexivity. Qed.
Lemma k_f_image W v T : f_image W (set_raw_blocks v T) = f_image W T.
Proof. unfold f_image. rewrite ?k_shelve. rewrite ?k_shelve_url. rewrite ?k_unrestrict_url. rewrite ?k_is_valid_url. rewrite ?k_use_align_class. reflexivity. Qed.
Lemma k_image W v T : image W (set_raw_blocks v T) = image W T.
Proof. unfold image. rewrite ?k_f_image. reflexivity. Qed.
Lemma k_all_replacers v T : all_replacers (set_raw_blocks v T) = all_replacers T.
Proof. unfold all_replacers. reflexivity. Qed.
Lemma k_glyph_chunk v T : glyph_chunk (set_raw_blocks v T) = glyph_chunk T.
Proof. unfold glyph_chunk. rewrite ?k_all_replacers. reflexivity. Qed.
Lemma k_glyph_chunks v T : glyph_chunks (set_raw_blocks v T) = glyph_chunks T.
Proof. unfold glyph_chunks. rewrite ?k_glyph_chunk. reflexivity. Qed.
Lemma k_glyphs v T : glyphs (set_raw_blocks v T) = glyphs T.
Proof. unfold glyphs. rewrite ?k_glyph_chunks. reflexivity. Qed.
Lemma k_f_glyph_quoted_quote v T : f_glyph_quoted_quote (set_raw_blocks v T) = f_glyph_quoted_quote T.
Proof. unfold f_glyph_quoted_quote. rewrite ?k_shelve. rewrite ?k_glyphs. reflexivity. Qed.
Lemma k_glyph_quoted_quote v T : glyph_quoted_quote (set_raw_blocks v T) = glyph_quoted_quote T.
Proof. unfold glyph_quoted_quote. rewrite ?k_f_glyph_quoted_quote. reflexivity. Qed.
Lemma k_store_tags v T : store_tags (set_raw_blocks v T) = store_tags T.
Proof. unfold store_tags. reflexivity. Qed.
Lemma k_f_span v T : f_span (set_raw_blocks v T) = f_span T.
Proof. unfold f_span. rewrite ?k_store_tags. reflexivity. Qed.
Lemma k_span_n v T : span_n (set_raw_blocks v T) = span_n T.
Proof. unfold span_n. rewrite ?k_f_span. reflexivity. Qed.
Lemma k_span v T : span (set_raw_blocks v T) = span T.
Proof. unfold span. rewrite ?k_span_n. reflexivity. Qed.
Lemma k_retrieve_tags v T : retrieve_tags (set_raw_blocks v T) = retrieve_tags T.
Proof. unfold retrieve_tags. reflexivity. Qed.
Lemma k_mark_slice fuel v T : mark_slice (set_raw_blocks v T) fuel = mark_slice T fuel.
Proof. unfold mark_slice. reflexivity. Qed.
Lemma k_mark_start_of_links fuel v T : mark_start_of_links (set_raw_blocks v T) fuel = mark_start_of_links T fuel.
Proof. unfold mark_start_of_links. rewrite ?k_mark_slice. reflexivity. Qed.
Lemma k_f_link W v T : f_link W (set_raw_blocks v T) = f_link W T.
Proof. unfold f_link. rewrite ?k_br_tag. rewrite ?k_shelve. rewrite ?k_shelve_url. rewrite ?k_unrestrict_url. rewrite ?k_scheme_allowed. rewrite ?k_image. rewrite ?k_glyphs. rewrite ?k_span. reflexivity. Qed.
Lemma k_link_loop W v T : link_loop W (set_raw_blocks v T) = link_loop W T.
Proof. unfold link_loop. rewrite ?k_f_link. reflexivity. Qed.
Lemma k_replace_links W fuel v T : replace_links W (set_raw_blocks v T) fuel = replace_links W T fuel.
Proof. unfold replace_links. rewrite ?k_link_loop. reflexivity. Qed.
Lemma k_links W fuel v T : links W (set_raw_blocks v T) fuel = links W T fuel.
Proof. unfold links. rewrite ?k_mark_start_of_links. rewrite ?k_replace_links. reflexivity. Qed.
Lemma k_f_tag_br v T : f_tag_br (set_raw_blocks v T) = f_tag_br T.
Proof. unfold f_tag_br. rewrite ?k_br_tag. reflexivity. Qed.
Lemma k_do_tag_br v T : do_tag_br (set_raw_blocks v T) = do_tag_br T.
Proof. unfold do_tag_br. rewrite ?k_f_tag_br. reflexivity. Qed.
Lemma k_f_p_br v T : f_p_br (set_raw_blocks v T) = f_p_br T.
Proof. unfold f_p_br. rewrite ?k_br_tag. reflexivity. Qed.
Lemma k_do_p_br v T : do_p_br (set_raw_blocks v T) = do_p_br T.
Proof. unfold do_p_br. rewrite ?k_f_p_br. reflexivity. Qed.
Lemma k_new_id v T : new_id (set_raw_blocks v T) = new_id T.
Proof. unfold new_id. reflexivity. Qed.
Lemma k_f_footnote_id v T : f_footnote_id (set_raw_blocks v T) = f_footnote_id T.
Proof. unfold f_footnote_id. rewrite ?k_new_id. reflexivity. Qed.
Lemma k_footnote_ref v T : footnote_ref (set_raw_blocks v T) = footnote_ref T.
Proof. unfold footnote_ref. rewrite ?k_f_footnote_id. reflexivity. Qed.
Lemma k_f_parse_note_refs v T : f_parse_note_refs (set_raw_blocks v T) = f_parse_note_refs T.
Proof. unfold f_parse_note_refs. rewrite ?k_new_id. reflexivity. Qed.
Lemma k_note_ref v T : note_ref (set_raw_blocks v T) = note_ref T.
Proof. unfold note_ref. rewrite ?k_f_parse_note_refs. reflexivity. Qed.
Lemma k_f_note_lists v T : f_note_lists (set_raw_blocks v T) = f_note_lists T.
Proof. unfold f_note_lists. reflexivity. Qed.
Lemma k_place_note_lists v T : place_note_lists (set_raw_blocks v T) = place_note_lists T.
Proof. unfold place_note_lists. rewrite ?k_f_note_lists. reflexivity. Qed.
Lemma k_list_line v T : list_line (set_raw_blocks v T) = list_line T.
Proof. unfold list_line. reflexivity. Qed.
Lemma k_list_lines v T : list_lines (set_raw_blocks v T) = list_lines T.
Proof. unfold list_lines. rewrite ?k_list_line. reflexivity. Qed.
Lemma k_f_textile_list v T : f_textile_list (set_raw_blocks v T) = f_textile_list T.
Proof. unfold f_textile_list. rewrite ?k_do_tag_br. rewrite ?k_list_lines. reflexivity. Qed.
Lemma k_textile_lists v T : textile_lists (set_raw_blocks v T) = textile_lists T.
Proof. unfold textile_lists. rewrite ?k_f_textile_list. reflexivity. Qed.
Lemma k_rc_line graf v T : rc_line (set_raw_blocks v T) graf = rc_line T graf.
Proof. unfold rc_line. rewrite ?k_br_tag. reflexivity. Qed.
Lemma k_f_rc_list graf v T : f_rc_list (set_raw_blocks v T) graf = f_rc_list T graf.
Proof. unfold f_rc_list. rewrite ?k_rc_line. reflexivity. Qed.
Lemma k_redcloth_list graf v T : redcloth_list (set_raw_blocks v T) graf = redcloth_list T graf.
Proof. unfold redcloth_list. rewrite ?k_f_rc_list. reflexivity. Qed.
Lemma k_process_caption v T : process_caption (set_raw_blocks v T) = process_caption T.
Proof. unfold process_caption. reflexivity. Qed.
Lemma k_col_tags v T : col_tags (set_raw_blocks v T) = col_tags T.
Proof. unfold col_tags. reflexivity. Qed.
Lemma k_table_cell graf v T : table_cell (set_raw_blocks v T) graf = table_cell T graf.
Proof. unfold table_cell. rewrite ?k_do_tag_br. rewrite ?k_textile_lists. rewrite ?k_redcloth_list. reflexivity. Qed.
Lemma k_row_caption v T : row_caption (set_raw_blocks v T) = row_caption T.
Proof. unfold row_caption. rewrite ?k_process_caption. reflexivity. Qed.
Lemma k_row_colgroup v T : row_colgroup (set_raw_blocks v T) = row_colgroup T.
Proof. unfold row_colgroup. rewrite ?k_col_tags. reflexivity. Qed.
Lemma k_row_group v T : row_group (set_raw_blocks v T) = row_group T.
Proof. unfold row_group. reflexivity. Qed.
Lemma k_table_row graf v T : table_row (set_raw_blocks v T) graf = table_row T graf.
Proof. unfold table_row. rewrite ?k_table_cell. rewrite ?k_row_caption. rewrite ?k_row_colgroup. rewrite ?k_row_group. reflexivity. Qed.
Lemma k_table_rows graf v T : table_rows (set_raw_blocks v T) graf = table_rows T graf.
Proof. unfold table_rows. rewrite ?k_table_row. reflexivity. Qed.
Lemma k_process_table graf v T : process_table (set_raw_blocks v T) graf = process_table T graf.
Proof. unfold process_table. rewrite ?k_table_rows. reflexivity. Qed.
Lemma k_table graf v T : table (set_raw_blocks v T) graf = table T graf.
Proof. unfold table. rewrite ?k_process_table. reflexivity. Qed.
Lemma k_parse_note_defs graf v T : parse_note_defs (set_raw_blocks v T) graf = parse_note_defs T graf.
Proof. unfold parse_note_defs. rewrite ?k_new_id. reflexivity. Qed.
Lemma k_block_footnote v T : block_footnote (set_raw_blocks v T) = block_footnote T.
Proof. unfold block_footnote. rewrite ?k_new_id. reflexivity. Qed.
Lemma k_block_shape W v T : block_shape W (set_raw_blocks v T) = block_shape W T.
Proof. unfold block_shape. rewrite ?k_shelve. rewrite ?k_shelve_url. rewrite ?k_unrestrict_url. reflexivity. Qed.
Lemma k_block_new W graf v T : block_new W (set_raw_blocks v T) graf = block_new W T graf.
Proof. unfold block_new. rewrite ?k_parse_note_defs. rewrite ?k_block_footnote. rewrite ?k_block_shape. reflexivity. Qed.
Lemma k_anonymous_block W graf v T : anonymous_block W (set_raw_blocks v T) graf = anonymous_block W T graf.
Proof. unfold anonymous_block. rewrite ?k_shelve. rewrite ?k_block_new. reflexivity. Qed.
Lemma k_block_step W graf v T : block_step W (set_raw_blocks v T) graf = block_step W T graf.
Proof. unfold block_step. rewrite ?k_br_tag. rewrite ?k_do_p_br. rewrite ?k_block_new. rewrite ?k_anonymous_block. reflexivity. Qed.
Lemma k_block W graf v T : block W (set_raw_blocks v T) graf = block W T graf.
Proof. unfold block. rewrite ?k_block_step. reflexivity. Qed.
Lemma k_graf_body W fuel graf v T : graf_body W (set_raw_blocks v T) fuel graf = graf_body W T fuel graf.
Proof. unfold graf_body. rewrite ?k_no_textile. rewrite ?k_code. rewrite ?k_get_html_comments. rewrite ?k_get_refs. rewrite ?k_image. rewrite ?k_glyphs. rewrite ?k_glyph_quoted_quote. rewrite ?k_span. rewrite ?k_links. rewrite ?k_footnote_ref. rewrite ?k_note_ref. rewrite ?k_textile_lists. rewrite ?k_redcloth_list. rewrite ?k_table. reflexivity. Qed.
Lemma k_graf_n W fuel v T : graf_n W (set_raw_blocks v T) fuel = graf_n W T fuel.
Proof. unfold graf_n. rewrite ?k_graf_body. reflexivity. Qed.
Lemma k_graf W fuel v T : graf W (set_raw_blocks v T) fuel = graf W T fuel.
Proof. unfold graf. rewrite ?k_graf_n. reflexivity. Qed.
Lemma k_final_br v T : final_br (set_raw_blocks v T) = final_br T.
Proof. unfold final_br. reflexivity. Qed.
Lemma k_finish v T : finish (set_raw_blocks v T) = finish T.
Proof. unfold finish. rewrite ?k_final_br. reflexivity. Qed.
Lemma k_prepare v T : prepare (set_raw_blocks v T) = prepare T.
Proof. unfold prepare. reflexivity. Qed.
Lemma k_parse_m W fuel v T : parse_m W (set_raw_blocks v T) fuel = parse_m W T fuel.
Proof. unfold parse_m. rewrite ?k_retrieve_urls. rewrite ?k_glyphs. rewrite ?k_glyph_quoted_quote. rewrite ?k_span. rewrite ?k_retrieve_tags. rewrite ?k_place_note_lists. rewrite ?k_block. rewrite ?k_graf. rewrite ?k_finish. rewrite ?k_prepare. reflexivity. Qed.

Lemma raw_blocks_unused W v T fuel c text : parse W (set_raw_blocks v T) fuel c text = parse W T fuel c text.
Proof. unfold parse. rewrite k_parse_m. reflexivity. Qed.
Lemma raw_blocks_same W T fuel c text :
  parse W (set_raw_blocks true T) fuel c text = parse W (set_raw_blocks false T) fuel c text.
Proof. rewrite !raw_blocks_unused. reflexivity. Qed.
