{
 "claims": [
  {
   "property": "C01",
   "status": "proved",
   "theorems": [
    "C01_no_control_characters"
   ],
   "note": "All regex passes modelled; no bound."
  },
  {
   "property": "C02",
   "status": "proved",
   "theorems": [
    "C02_no_newline_at_ends"
   ],
   "note": ""
  },
  {
   "property": "C03",
   "status": "proved",
   "theorems": [
    "C03_unchanged_exactly",
    "C03_tidy_text_unchanged"
   ],
   "note": "C03_unchanged_exactly: a text is unchanged if and only if it is settled (SpecPreproc.v). Tidy = lines of non-trigger characters with a visible character, separated by one newline or one blank line."
  },
  {
   "property": "C04",
   "status": "partial",
   "theorems": [
    "C04_backslash_newline_refuted",
    "C04_backslash_newline_partial"
   ],
   "note": "The full claim is false of the code (counterexample proved); holds for texts without two adjacent backslashes."
  },
  {
   "property": "C05",
   "status": "partial",
   "theorems": [
    "C05_three_newlines_refuted",
    "C05_three_newlines_partial"
   ],
   "note": "The full claim is false of the code (counterexample proved); holds for texts without a line continuation."
  },
  {
   "property": "C06",
   "status": "partial",
   "theorems": [
    "C06_idempotent_refuted",
    "C06_idempotent_partial",
    "C06_idempotent_whitespace_partial"
   ],
   "note": "The full claim is false of the code (counterexample proved); holds on tidy texts, and on all texts without NUL, backslash, backquote and doubled full stops or commas, however untidy their white space."
  },
  {
   "property": "C07",
   "status": "proved",
   "theorems": [
    "C07_preprocess_total"
   ],
   "note": ""
  },
  {
   "property": "C08",
   "status": "proved",
   "theorems": [
    "C08_typography_rewrites",
    "C08_typography_preserves_content"
   ],
   "note": ""
  },
  {
   "property": "C13",
   "status": "proved",
   "theorems": [
    "C13_utf16_index_exact",
    "C13_empty_text_panics"
   ],
   "note": "The empty text (where even index 0 panics) is stated separately."
  },
  {
   "property": "C28",
   "status": "proved",
   "theorems": [
    "C28_ids_isolated",
    "C28_words_exist",
    "C28_ids_isolated_idempotent"
   ],
   "note": ""
  },
  {
   "property": "C29",
   "status": "proved",
   "theorems": [
    "C29_escape_safe",
    "C29_escape_ampersands",
    "C29_escape_lossless"
   ],
   "note": ""
  },
  {
   "property": "C31",
   "status": "proved",
   "theorems": [
    "C31_quoted_string_decodes",
    "C31_quote_parse_roundtrip",
    "C31_unquoted_unchanged",
    "C31_trailing_backslash_dropped",
    "C31_total"
   ],
   "note": "A lone backslash at the end of the quoted part is dropped by the code; stated as its own theorem."
  },
  {
   "property": "C32",
   "status": "proved",
   "theorems": [
    "C32_boolean"
   ],
   "note": ""
  },
  {
   "property": "C33",
   "status": "proved",
   "theorems": [
    "C33_condition_check",
    "C33_condition_parse"
   ],
   "note": ""
  },
  {
   "property": "C45",
   "status": "proved",
   "theorems": [
    "C45_stack",
    "C45_last"
   ],
   "note": ""
  },
  {
   "property": "C23",
   "status": "partial",
   "theorems": [
    "C23_parse_spec",
    "C23_roundtrip_partial",
    "C23_roundtrip_refuted"
   ],
   "note": "Which texts parse is fully characterised; the round trip fails exactly when the site is white space only (counterexample proved)."
  },
  {
   "property": "C24",
   "status": "proved",
   "theorems": [
    "C24_href_shape",
    "C24_no_script_url"
   ],
   "note": "For every normaliser and every meaning of the regex word class."
  },
  {
   "property": "C25",
   "status": "proved",
   "theorems": [
    "C25_dangerous_iff"
   ],
   "note": ""
  },
  {
   "property": "C26",
   "status": "partial",
   "theorems": [
    "C26_attribute_map_partial",
    "C26_suffix_unchecked_refuted",
    "C26_arguments_distinct",
    "C26_urls_normalised"
   ],
   "note": "Everything except that the text after data-/aria- is checked, which is false of the code (refuted)."
  },
  {
   "property": "C27",
   "status": "proved",
   "theorems": [
    "C27_no_event_handlers",
    "C27_map_has_no_event_handlers"
   ],
   "note": ""
  },
  {
   "property": "C30",
   "status": "proved",
   "theorems": [
    "C30_builder_balanced",
    "C30_attr_pairs"
   ],
   "note": ""
  },
  {
   "property": "C42",
   "status": "proved",
   "theorems": [
    "C42_interwiki",
    "C42_interwiki_never_panics",
    "C42_interwiki_no_space"
   ],
   "note": ""
  },
  {
   "property": "C43",
   "status": "proved",
   "theorems": [
    "C43_link_split"
   ],
   "note": ""
  },
  {
   "property": "C46",
   "status": "proved",
   "theorems": [
    "C46_hash_order_irrelevant"
   ],
   "note": ""
  },
  {
   "property": "C09",
   "status": "proved",
   "theorems": [
    "C09_tokens_partition",
    "C09_slice_between_tokens"
   ],
   "note": ""
  },
  {
   "property": "C10",
   "status": "proved",
   "theorems": [
    "C10_lexer_accepts_everything",
    "C10_repetitions_make_progress"
   ],
   "note": ""
  },
  {
   "property": "C11",
   "status": "proved",
   "theorems": [
    "C11_token_shapes",
    "C11_text_determines_kind",
    "C11_longest",
    "C11_doubled"
   ],
   "note": ""
  },
  {
   "property": "C12",
   "status": "partial",
   "theorems": [
    "C12_email_tokens_refuted"
   ],
   "note": "The property is false of the code: no text yields an Email token (proved for every text)."
  },
  {
   "property": "C14",
   "status": "partial",
   "theorems": [
    "C14_tokens_to_utf16",
    "C14_empty_text_refuted",
    "C73_error_positions"
   ],
   "note": "Holds for every token of every non-empty text; on the empty text every token panics (proved). Parse errors convert for every text (C73_error_positions)."
  },
  {
   "property": "C15",
   "status": "proved",
   "theorems": [
    "C15_disabled",
    "C15_no_block"
   ],
   "note": ""
  },
  {
   "property": "C16",
   "status": "partial",
   "theorems": [
    "C16_block_form",
    "C16_only_blocks_replaced_partial",
    "C16_only_blocks_replaced_refuted"
   ],
   "note": "Full statement false of the code when a block is opened inside an open block (counterexample proved); proved for every other text."
  },
  {
   "property": "C17",
   "status": "partial",
   "theorems": [
    "C17_no_panic_partial",
    "C17_no_panic_refuted"
   ],
   "note": "Full statement false of the code (counterexample proved); proved for texts in which no block is opened inside an open block."
  },
  {
   "property": "C18",
   "status": "partial",
   "theorems": [
    "C18_wrong_count",
    "C18_answers_match",
    "C18_mismatch_rejected_partial"
   ],
   "note": "Success always implies matching answers; that the error is the invalid-return error needs a text without nested blocks (otherwise the panic of C17 may come first) and an includer that does not fail itself."
  },
  {
   "property": "C19",
   "status": "proved",
   "theorems": [
    "C19_single_pass"
   ],
   "note": ""
  },
  {
   "property": "C20",
   "status": "proved",
   "theorems": [
    "C20_first_usable",
    "C20_arguments_unique"
   ],
   "note": ""
  },
  {
   "property": "C47",
   "status": "partial",
   "theorems": [
    "C47_null_includer_refuted"
   ],
   "note": "The documented behaviour is false of the code: proved for every text with an include block."
  },
  {
   "property": "C21",
   "status": "proved",
   "theorems": [
    "C21_depth_lists_read_back",
    "C21_no_empty_lists",
    "C21_lists_merged",
    "C21_round_trip"
   ],
   "note": "For every list type with decidable equality."
  },
  {
   "property": "C22",
   "status": "proved",
   "theorems": [
    "C22_toc_numbered",
    "C22_toc_one_list"
   ],
   "note": ""
  },
  {
   "property": "C34",
   "status": "proved",
   "theorems": [
    "C34_paragraph_layout",
    "C34_layout_unique",
    "C34_nothing_lost",
    "C34_paragraphs_safe"
   ],
   "note": "About the paragraph stack, for every sequence of pushes and breaks."
  },
  {
   "property": "C44",
   "status": "proved",
   "theorems": [
    "C44_strip_newlines",
    "C44_strip_whitespace",
    "C44_stripped_unique"
   ],
   "note": ""
  },
  {
   "property": "C35",
   "status": "proved",
   "theorems": [
    "C35_parse_terminates",
    "C35_consume_progress",
    "C35_start"
   ],
   "note": "For every text; the panics are characterised in C48."
  },
  {
   "property": "C36",
   "status": "partial",
   "theorems": [
    "C36_failed_rule_partial",
    "C36_failed_rule_refuted"
   ],
   "note": "Proved: a failing rule leaves position, flags and depth as they were and only ever adds to the shared tables. That it adds nothing is false of the code (a footnote inside unclosed bold is recorded twice)."
  },
  {
   "property": "C37",
   "status": "proved",
   "theorems": [
    "C37_errors_genuine"
   ],
   "note": ""
  },
  {
   "property": "C38",
   "status": "proved",
   "theorems": [
    "C38_depth_limit",
    "C38_page_given_up"
   ],
   "note": ""
  },
  {
   "property": "C39",
   "status": "partial",
   "theorems": [
    "C39_partials_enclosed_partial",
    "C39_partial_left_refuted",
    "C39_footnote_refuted"
   ],
   "note": "Every partial left in the page is inside a block of its kind; that none is left, and the same for footnotes, is false of the code (counterexamples proved)."
  },
  {
   "property": "C40",
   "status": "proved",
   "theorems": [
    "C40_code_names_unique"
   ],
   "note": ""
  },
  {
   "property": "C41",
   "status": "proved",
   "theorems": [
    "C41_flag_after_consume",
    "C41_line_start_elements"
   ],
   "note": ""
  },
  {
   "property": "C48",
   "status": "partial",
   "theorems": [
    "C48_panics",
    "C48_no_panic",
    "C48_check_step_refuted",
    "C48_partial_refuted",
    "C48_block_name_refuted",
    "C48_heading_link_refuted"
   ],
   "note": "The full claim is false of the code: four panics are reachable (each proved); no other is, and none without a double opening bracket or double closing parenthesis."
  },
  {
   "property": "C49",
   "status": "proved",
   "theorems": [
    "C49_attributes_safe",
    "C49_attributes_origin"
   ],
   "note": "The URL normaliser is C24; the data-/aria- suffix hole of C26 applies here too."
  },
  {
   "property": "C50",
   "status": "partial",
   "theorems": [
    "C50_paragraph_contents_partial",
    "C50_nested_refuted"
   ],
   "note": "Proved for what stands directly in the paragraph; deeper down it is false of the code (counterexample through the paragraph block)."
  },
  {
   "property": "C51",
   "status": "proved",
   "theorems": [
    "C51_footnotes_exist",
    "C51_footnotes_flat"
   ],
   "note": ""
  },
  {
   "property": "C52",
   "status": "proved",
   "theorems": [
    "C52_contents_from_source",
    "C52_tables_from_source"
   ],
   "note": ""
  },
  {
   "property": "C53",
   "status": "proved",
   "theorems": [
    "C53_bibliographies"
   ],
   "note": ""
  },
  {
   "property": "C54",
   "status": "proved",
   "theorems": [
    "C54_ranges",
    "C54_toc_depths"
   ],
   "note": ""
  },
  {
   "property": "C55",
   "status": "partial",
   "theorems": [
    "C55_no_second_footnote_block",
    "C55_always_a_block_refuted"
   ],
   "note": "No second block is ever added; that a block is always there is false of the code (counterexample: the author's block dropped by a condition)."
  },
  {
   "property": "C56",
   "status": "partial",
   "theorems": [
    "C56_bound_irrelevant",
    "C56_ends",
    "C56_plain_pages_end",
    "C56_footnote_circle_refuted",
    "C56_citation_circle_refuted"
   ],
   "note": "False of the code: two pages on which rendering never ends, whatever the settings. Proved: it ends whenever the references do not go in circles, in particular when footnotes and entries have no references in them."
  },
  {
   "property": "C57",
   "status": "partial",
   "theorems": [
    "C57_panics",
    "C57_calm_pages",
    "C57_partial_refuted",
    "C57_link_refuted",
    "C57_footnote_refuted",
    "C57_attribute_refuted",
    "C57_style_refuted"
   ],
   "note": "False of the code: five panics are reachable (each proved); no other is, and each needs the named element."
  },
  {
   "property": "C58",
   "status": "partial",
   "theorems": [
    "C58_reads_back_partial",
    "C58_improper_names",
    "C58_attribute_name_refuted"
   ],
   "note": "Proved for pages whose attribute names are names (only text after data-/aria- can fail that) and for CSS and MathML libraries that write contained output; false of the code otherwise (an injected onclick handler is proved)."
  },
  {
   "property": "C59",
   "status": "proved",
   "theorems": [
    "C59_tags",
    "C59_attributes"
   ],
   "note": "Under the hypotheses of C58."
  },
  {
   "property": "C60",
   "status": "proved",
   "theorems": [
    "C60_no_scripts",
    "C60_frames"
   ],
   "note": "Under the hypotheses of C58; MathML output is the library's."
  },
  {
   "property": "C61",
   "status": "partial",
   "theorems": [
    "C61_links_partial",
    "C61_no_script_links",
    "C61_no_script_links_source",
    "C61_script_link_refuted"
   ],
   "note": "False of the code: a triple-bracket link to javascript:; followed by / or # keeps the rest of its source (the witness runs a script). Proved for every page without such a link, so for every text without [[[ (C61_no_script_links_source)."
  },
  {
   "property": "C62",
   "status": "proved",
   "theorems": [
    "C62_ids",
    "C62_no_collision",
    "C49_ids_isolated"
   ],
   "note": "Under the hypotheses of C58; the text has no NUL (preprocessing removes them, C01) and random ids look as random.rs makes them."
  },
  {
   "property": "C63",
   "status": "proved",
   "theorems": [
    "C63_meta_reads_back",
    "C63_head_reads_back",
    "C63_page_metadata"
   ],
   "note": ""
  },
  {
   "property": "C64",
   "status": "proved",
   "theorems": [
    "C64_formatted_text",
    "C64_one_line",
    "C64_pipeline"
   ],
   "note": "End to end: source text to tokens to tree to HTML and plain text, for pages of headings, paragraphs, rules, lists, quotes and emphasis. Two lists (or quotes) never follow each other in such a page: with a blank line in between the code reads them as one. C64_pipeline adds the include and preprocessing steps, for pages that have nothing for the preprocessor to rewrite."
  },
  {
   "property": "C65",
   "status": "partial",
   "theorems": [
    "C65_plain_text_partial",
    "C65_trimmed",
    "C65_panics",
    "C65_page_text",
    "C65_invisible_refuted"
   ],
   "note": "Everything except that invisible containers cover dates and equation references, which is false of the code (refuted)."
  },
  {
   "property": "C66",
   "status": "proved",
   "theorems": [
    "C66_no_text_lost",
    "C66_no_text_added"
   ],
   "note": "for pages meeting the hypotheses of C58 (proper data-/aria- names; contained CSS and MathML output); the text shown by a footnote mark's tooltip is not part of the statement"
  },
  {
   "property": "C67",
   "status": "partial",
   "theorems": [
    "C67_headings",
    "C67_headings_distinct",
    "C67_footnote_marks",
    "C67_footnote_refuted",
    "C67_contents_refuted"
   ],
   "note": "numbering proved; the last sentence is false: headings and footnotes of text that is given up or left out by a condition stay in the lists (two refutations)"
  },
  {
   "property": "C68",
   "status": "partial",
   "theorems": [
    "C68_backlinks",
    "C68_backlinks_exact",
    "C68_recorded",
    "C68_image_refuted",
    "C68_toc_refuted"
   ],
   "note": "links written as link elements: proved; false of the code for links around images and anchors (not recorded) and for table of contents entries (recorded as pages called #toc0, ...). included_pages is never filled by the code and is not part of the model's output."
  },
  {
   "property": "C69",
   "status": "partial",
   "theorems": [
    "C69_letters_kept_partial",
    "C69_html_letters_partial",
    "C69_source_to_page_partial",
    "C69_preprocessed_partial",
    "C69_table_refuted",
    "C69_definition_refuted",
    "C69_heading_refuted"
   ],
   "note": "proved for texts without brackets, tables, colours and double parentheses, with a space after each colon that follows one, and with either no heading below the first line or fewer than a hundred characters that can open markup; outside these the code does lose text: an unfinished table row, the word right after the second colon of a definition, the start of a heading that follows another when its markup nests too deep (each shown by a _refuted theorem)."
  },
  {
   "property": "C70",
   "status": "proved",
   "theorems": [
    "C70_no_blocks"
   ],
   "note": "also the ground for the HTML part of C69."
  },
  {
   "property": "C71",
   "status": "proved",
   "theorems": [
    "C71_preprocess_letters"
   ],
   "note": "C69_preprocessed_partial (under C69) joins it to parsing and rendering."
  },
  {
   "property": "C72",
   "status": "proved",
   "theorems": [
    "C72_inert",
    "C72_source_to_page",
    "C72_only_color_refuted"
   ],
   "note": "C72_only_color_refuted: the style of coloured text is not checked; it can set more than a colour. C72_source_to_page also needs no )), which stops the parser (C48)."
  },
  {
   "property": "C73",
   "status": "partial",
   "theorems": [
    "C73_token_positions",
    "C73_error_positions",
    "C73_empty_tokens_refuted"
   ],
   "note": "False for the tokens of the empty text, which panic; proved for the tokens of every other text and for the errors of every text."
  },
  {
   "property": "C74",
   "status": "proved",
   "theorems": [
    "C74_blocks",
    "C74_plain_text",
    "C74_leading_blank_refuted"
   ],
   "note": "The last theorem shows that the condition on leading blanks is needed. Blocks with other bodies (code, lists, tables, tabs, images, modules) are not in this property; see the properties on those."
  },
  {
   "property": "C75",
   "status": "proved",
   "theorems": [
    "C75_page_link",
    "C75_bracket_link",
    "C75_jump",
    "C74_blocks",
    "C75_url_label_refuted"
   ],
   "note": "C74_blocks contains the statement for links anywhere in a page of blocks. Interwiki links, and outside addresses in three brackets, are not covered; the last theorem shows that of the latter what is shown without a caption is not the address."
  },
  {
   "property": "C76",
   "status": "proved",
   "theorems": [
    "C76_code",
    "C76_html",
    "C74_blocks",
    "C74_plain_text",
    "C76_empty_lines_refuted",
    "C76_false_end_refuted"
   ],
   "note": "C74_blocks contains the statement for such blocks anywhere in a page. Named code blocks are not covered. The last two theorems show that the conditions are needed: a text that starts or ends with an empty line gets an extra line break, and the text also ends at [[/[[code]]."
  },
  {
   "property": "C77",
   "status": "partial",
   "theorems": [
    "C77_iftags",
    "C77_ifcategory",
    "C74_blocks",
    "C77_left_out_refuted"
   ],
   "note": "Proved for the text, the HTML and the links of a page. Missing because it is false: what a page stores beside its text -- footnotes, programs, headings -- still contains those of text that is left out (C77_left_out_refuted). Conditional text around whole blocks, and tags that start with a character with a meaning of its own, are not covered."
  },
  {
   "property": "C78",
   "status": "proved",
   "theorems": [
    "C78_list",
    "C78_table",
    "C74_blocks",
    "C74_plain_text",
    "C78_blanks_refuted",
    "C78_plain_text_refuted"
   ],
   "note": "C78_list and C78_table state it for texts, letter by letter; with attributes, markup and surroundings it is C74_blocks, whose pages have lists and tables. Lists inside items are not covered (nor the wikidot list syntax, which is C64). Refuted: blanks at the ends of a cell are lost, and the plain text of a table does not tell its cells apart."
  },
  {
   "property": "C79",
   "status": "proved",
   "theorems": [
    "C79_bars",
    "C79_lines",
    "C74_blocks",
    "C74_plain_text",
    "C79_unfinished_refuted"
   ],
   "note": "C79_bars and C79_lines state it for texts, letter by letter; with markup and surroundings it is C74_blocks, whose pages have such tables and lines. Cells over several lines and cells without blanks around their contents are not covered. Refuted: the text of a row that is not closed is lost without an error."
  },
  {
   "property": "C80",
   "status": "proved",
   "theorems": [
    "C80_lines",
    "C80_text",
    "C74_blocks",
    "C74_plain_text",
    "C80_condition_refuted",
    "C80_hidden_refuted"
   ],
   "note": "C80_lines states it for a paragraph of any lines with markup (that itself may have lines), C80_text for texts, letter by letter; elsewhere on a page of blocks it is C74_blocks. Lines that start with conditional, hidden or invisible text are left out, as the line break before them is lost: refuted for both by pages on which that happens."
  },
  {
   "property": "C81",
   "status": "partial",
   "theorems": [
    "C81_anchor",
    "C74_blocks",
    "C74_plain_text",
    "C81_unrecorded_refuted"
   ],
   "note": "C81_anchor states it for an anchor that is the page; elsewhere on a page, with any further attributes, it is C74_blocks (whose attributes may be href and src with such addresses). Missing: relative addresses (which are normalised) and those of unknown schemes. That the address is among those the page links to is refuted."
  },
  {
   "property": "C82",
   "status": "partial",
   "theorems": [
    "C82_places",
    "C82_jump",
    "C82_capital_refuted",
    "C82_isolated_refuted"
   ],
   "note": "Stated for a paragraph that is the page, with the places, written [[# name]], [[target name]] or [[anchortarget name]], anywhere among its inline markup, on the same line or lines of their own; the line breaks beside the block forms are proved not to be shown. With ids isolated the id is the isolated name. A jump leads to the place whose id is its normalised name: so a jump to the name of the place itself leads nowhere for names with capital letters (C82_capital_refuted) and with ids isolated (C82_isolated_refuted), where the claim is refuted."
  }
 ]
}