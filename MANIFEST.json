{
 "claims": [
  {
   "property": "C01",
   "status": "proved",
   "theorems": [
    "C01_edits_keep_tree_consistent"
   ],
   "note": "For every disciplined history from the empty heap."
  },
  {
   "property": "C02",
   "status": "proved",
   "theorems": [
    "C02_append",
    "C02_append_succeeds",
    "C02_append_owned_child_refused"
   ],
   "note": "Effect, success condition and refusal of owned children."
  },
  {
   "property": "C03",
   "status": "proved",
   "theorems": [
    "C03_prepend",
    "C03_prepend_owned_child_refused"
   ],
   "note": "Effect and refusal of children owned by another parent. A child already listed by the same parent is accepted and listed twice (see C05)."
  },
  {
   "property": "C04",
   "status": "partial",
   "theorems": [
    "C04_refused_edit_leaves_tree_unchanged_refuted",
    "C04_refused_append_partial",
    "C04_refused_parent_setter_unchanged"
   ],
   "note": "Refuted as stated: append, prepend and replace_self insert the child before the class check. Proved: refusal of an owned child changes nothing, the parent setter is atomic, and the exact effect of a refused append."
  },
  {
   "property": "C05",
   "status": "partial",
   "theorems": [
    "C05_one_place_per_node_refuted",
    "C05_append_one_place_partial"
   ],
   "note": "Refuted as stated for prepend, replace_self and cycles. Proved: append never lists a node twice; with documented usage C01 applies."
  },
  {
   "property": "C06",
   "status": "proved",
   "theorems": [
    "C06_replace_self",
    "C06_replace_self_succeeds",
    "C06_replace_self_of_root_refused"
   ],
   "note": "Replacements not containing the node itself."
  },
  {
   "property": "C07",
   "status": "proved",
   "theorems": [
    "C07_remove",
    "C07_remove_self",
    "C07_clear",
    "C07_remove_of_non_child",
    "C07_remove_undoes_append"
   ],
   "note": "Effects of remove, remove_self and clear, the error case, and remove undoing append."
  },
  {
   "property": "C08",
   "status": "proved",
   "theorems": [
    "C08_traverse",
    "C08_traverse_terminates",
    "C08_each_node_once"
   ],
   "note": "Order, filtering and termination on every tree."
  },
  {
   "property": "C09",
   "status": "proved",
   "theorems": [
    "C09_first_of_type",
    "C09_last_of_type",
    "C09_of_type_succeeds"
   ],
   "note": ""
  },
  {
   "property": "C10",
   "status": "proved",
   "theorems": [
    "C10_next_prev_inverse",
    "C10_next_is_adjacent",
    "C10_class_filter",
    "C10_root_has_no_siblings"
   ],
   "note": ""
  },
  {
   "property": "C11",
   "status": "proved",
   "theorems": [
    "C11_first_ancestor_of_type",
    "C11_closest_ancestor_unique",
    "C11_terminates"
   ],
   "note": "Includes termination and uniqueness of the answer."
  },
  {
   "property": "C12",
   "status": "proved",
   "theorems": [
    "C12_sexp_determines_tree",
    "C12_sexp_succeeds"
   ],
   "note": "For trees in possibly different heaps and any fixed tab width."
  },
  {
   "property": "C13",
   "status": "proved",
   "theorems": [
    "C13_parents_permitted"
   ],
   "note": "For every history, including refused calls."
  },
  {
   "property": "C14",
   "status": "partial",
   "theorems": [
    "C14_equality_reflexive",
    "C14_equality_symmetric_same_shape_partial",
    "C14_equal_nodes_agree_partial",
    "C14_equality_is_equivalence_refuted"
   ],
   "note": "Reflexivity proved; symmetry proved between trees of the same shape; symmetry in general and separation of classes refuted."
  },
  {
   "property": "C15",
   "status": "proved",
   "theorems": [
    "C15_metakeys_inherited",
    "C15_common_metakeys"
   ],
   "note": ""
  },
  {
   "property": "C16",
   "status": "proved",
   "theorems": [
    "C16_ingest_dict_as_meta",
    "C16_ingest_succeeds"
   ],
   "note": "Attributes are addressed by name; assigning the key parent is outside the model, and read-only properties raise AttributeError."
  },
  {
   "property": "C17",
   "status": "proved",
   "theorems": [
    "C17_documents_are_ready",
    "C17_labels_unique_first_wins"
   ],
   "note": "For every document made with the constructors (C17_documents_are_ready) on which transform ends. Labels given to citations (cite-k) are not part of the claim."
  },
  {
   "property": "C18",
   "status": "proved",
   "theorems": [
    "C18_no_pending_left"
   ],
   "note": ""
  },
  {
   "property": "C19",
   "status": "proved",
   "theorems": [
    "C19_references_resolved"
   ],
   "note": "Error nodes are assumed to carry no label, which the parser never gives them."
  },
  {
   "property": "C20",
   "status": "proved",
   "theorems": [
    "C20_citations_and_backlinks"
   ],
   "note": "Back-links in document order, one per mention."
  },
  {
   "property": "C21",
   "status": "partial",
   "theorems": [
    "C21_first_mistake_partial",
    "C21_outcomes_partial",
    "C21_reported_partial",
    "C21_exceptions_partial",
    "C21_node_error_refuted",
    "C21_subproof_partial",
    "C21_letter_partial",
    "C21_all_outcomes_partial",
    "C21_kind_partial",
    "C21_transformed_iff_partial",
    "C21_only_transformer_errors_refuted"
   ],
   "note": "Refuted as stated: AttributeError, AssertionError, StopIteration, ValueError and RSMNodeError also occur. Proved: the exceptions that may leave transform; the first reference with a mistake decides the exception, and a document that is fine otherwise is transformed or has such a reference. Proved also for the mistakes of later passes: subproofs that are not last give AssertionError, the 27th appendix StopIteration, a construct without a kind AssertionError (unless it is below a second table of contents, which is dropped), and of the documents with at most one table of contents and sections nested as it needs them exactly those without these mistakes are transformed. Missing: which exception sections that are not nested properly give with a table of contents."
  },
  {
   "property": "C22",
   "status": "proved",
   "theorems": [
    "C22_previous_steps",
    "C22_outside_a_step",
    "C22_too_few_steps"
   ],
   "note": "Success, and both failures with their messages. A number that is not positive denotes the enclosing step."
  },
  {
   "property": "C23",
   "status": "proved",
   "theorems": [
    "C23_steps_split"
   ],
   "note": ""
  },
  {
   "property": "C24",
   "status": "proved",
   "theorems": [
    "C24_restructuring",
    "C24_whole_transform",
    "C24_other_children_kept"
   ],
   "note": "The pass itself and the whole transform."
  },
  {
   "property": "C25",
   "status": "proved",
   "theorems": [
    "C25_numbers_count",
    "C25_scopes_exist"
   ],
   "note": "For everything but proof steps, which are C26 and ignore nonum."
  },
  {
   "property": "C26",
   "status": "proved",
   "theorems": [
    "C26_steps_numbered"
   ],
   "note": ""
  },
  {
   "property": "C27",
   "status": "partial",
   "theorems": [
    "C27_full_numbers_identify_refuted",
    "C27_numbers_differ_in_scope_partial"
   ],
   "note": "Refuted as stated. Proved: different numbers for the members of one sequence in one scope."
  },
  {
   "property": "C28",
   "status": "partial",
   "theorems": [
    "C28_any_number_of_appendices_refuted",
    "C28_appendix_letters_partial"
   ],
   "note": "Refuted at the 27th. Proved: letters in order and the Appendix template whenever transform ends."
  },
  {
   "property": "C29",
   "status": "proved",
   "theorems": [
    "C29_full_number_is_path",
    "C29_unnumbered",
    "C29_terminates"
   ],
   "note": "Value and termination."
  },
  {
   "property": "C30",
   "status": "partial",
   "theorems": [
    "C30_never_shows_None_refuted",
    "C30_reference_text_partial",
    "C30_reference_text_exists"
   ],
   "note": "Refuted for nodes without a number. The filling of the template is proved in both directions."
  },
  {
   "property": "C31",
   "status": "proved",
   "theorems": [
    "C31_table_of_contents"
   ],
   "note": "For well nested sections."
  },
  {
   "property": "C32",
   "status": "proved",
   "theorems": [
    "C32_constructs_typed"
   ],
   "note": ""
  },
  {
   "property": "C33",
   "status": "partial",
   "theorems": [
    "C33_depth_counts_ancestors_refuted",
    "C33_depth_partial",
    "C33_depth_single_rails_partial"
   ],
   "note": "Refuted as stated: a class is counted along with its bases. Proved: the exact count, and the property when no ancestor has two handrails."
  },
  {
   "property": "C34",
   "status": "proved",
   "theorems": [
    "C34_node_ids"
   ],
   "note": ""
  },
  {
   "property": "C35",
   "status": "partial",
   "theorems": [
    "C35_transformer_reusable_refuted",
    "C35_other_labels_partial",
    "C35_second_document_partial"
   ],
   "note": "Refuted as stated. Proved when the second document uses no label of the first."
  },
  {
   "property": "C36",
   "status": "proved",
   "theorems": [
    "C36_text_kept"
   ],
   "note": "Text below dropped contents markers is dropped with them."
  },
  {
   "property": "C37",
   "status": "proved",
   "theorems": [
    "C37_no_deferred_left",
    "C37_no_deferred_left_handrails",
    "C37_visit_children_leave",
    "C37_visit_children_leave_handrails"
   ],
   "note": "Both translators: the three errors of lost closings never occur, and the output is visit, children, leave."
  },
  {
   "property": "C38",
   "status": "partial",
   "theorems": [
    "C38_well_nested_partial",
    "C38_well_nested_refuted"
   ],
   "note": "Refuted as stated. Proved when math blocks are children of paragraphs and the last child of a paragraph is not a second math block."
  },
  {
   "property": "C39",
   "status": "partial",
   "theorems": [
    "C39_handrails_well_nested_partial",
    "C39_handrails_well_nested_refuted"
   ],
   "note": "Refuted as stated. Proved under the same condition as C38."
  },
  {
   "property": "C40",
   "status": "proved",
   "theorems": [
    "C40_text_once_in_order"
   ],
   "note": "Base translator; texts of Text, Error and SourceCode nodes. The handrails translator moves a dot after a formula and is not covered."
  },
  {
   "property": "C41",
   "status": "partial",
   "theorems": [
    "C41_ids_come_from_labels",
    "C41_ids_unique_partial",
    "C41_ids_unique_refuted"
   ],
   "note": "Refuted as stated: a labelled figure has its id twice. Proved: every id comes from a label, and uniqueness when labels are apart."
  },
  {
   "property": "C42",
   "status": "partial",
   "theorems": [
    "C42_reference_links_partial",
    "C42_citation_links",
    "C42_reference_links_refuted"
   ],
   "note": "Refuted for classes whose elements have no id. Proved for all other classes and for citations (base translator)."
  },
  {
   "property": "C43",
   "status": "proved",
   "theorems": [
    "C43_classes_once",
    "C43_node_tags",
    "C43_links_refuted"
   ],
   "note": "Tags of nodes. Links written without such a tag repeat classes (refuted)."
  },
  {
   "property": "C44",
   "status": "partial",
   "theorems": [
    "C44_structure_kept_partial",
    "C44_structure_kept_handrails_partial",
    "C44_base_repeatable_partial",
    "C44_handrails_repeatable_refuted"
   ],
   "note": "Proved: what both translators leave unchanged, and that a second translation by the base translator gives the same HTML. Repeatability refuted for handrails."
  },
  {
   "property": "C45",
   "status": "proved",
   "theorems": [
    "C45_dispatch_nearest",
    "C45_dispatch_nearest_handrails"
   ],
   "note": ""
  },
  {
   "property": "C46",
   "status": "partial",
   "theorems": [
    "C46_text_shown_partial",
    "C46_text_escaped_refuted"
   ],
   "note": "Refuted: nothing is escaped. Proved for documents without markup characters."
  },
  {
   "property": "C47",
   "status": "proved",
   "theorems": [
    "C47_tree_mirrors_source",
    "C47_only_new_nodes",
    "C47_source_order",
    "C47_at_most_one_node",
    "C47_terminates",
    "C47_ready_for_transformer"
   ],
   "note": "The syntax tree made by tree-sitter is the input. The recursive specification is SpecParse.v and SpecNorm.v."
  },
  {
   "property": "C48",
   "status": "partial",
   "theorems": [
    "C48_normalisation",
    "C48_no_adjacent_texts",
    "C48_other_nodes_kept",
    "C48_every_node_kept",
    "C48_reading_kept_partial",
    "C48_mixed_texts_refuted"
   ],
   "note": "Proved, except that the reading of siblings is kept only if verbatim texts and other texts are not siblings (C48_mixed_texts_refuted)."
  },
  {
   "property": "C49",
   "status": "partial",
   "theorems": [
    "C49_errors_warned_partial",
    "C49_records_exact",
    "C49_error_shown_refuted",
    "C49_text_not_swallowed_refuted",
    "C49_every_error_reported_refuted"
   ],
   "note": "Refuted as stated, in three ways. Proved: every error on a way through sections and paragraphs is reported."
  },
  {
   "property": "C50",
   "status": "proved",
   "theorems": [
    "C50_ends_become_one_space",
    "C50_blank_text",
    "C50_words_kept",
    "C50_idempotent",
    "C50_texts_tight"
   ],
   "note": ""
  },
  {
   "property": "C51",
   "status": "partial",
   "theorems": [
    "C51_escape_exact_partial",
    "C51_order_irrelevant_partial",
    "C51_no_backslash_no_change",
    "C51_order_irrelevant_refuted"
   ],
   "note": "Proved when the backslash is not among the characters; refuted (order matters) when it is."
  },
  {
   "property": "C52",
   "status": "proved",
   "theorems": [
    "C52_find_first_unescaped",
    "C52_find_other_characters",
    "C52_find_any_string",
    "C52_find_beyond_end"
   ],
   "note": ""
  },
  {
   "property": "C53",
   "status": "partial",
   "theorems": [
    "C53_index_found_partial",
    "C53_index_absent_partial",
    "C53_index_raises_refuted",
    "C53_index_terminates_refuted"
   ],
   "note": "Refuted: index never raises; it returns -1 or runs forever. Proved: what it returns when it returns."
  },
  {
   "property": "C54",
   "status": "partial",
   "theorems": [
    "C54_split_join_partial",
    "C54_split_join_refuted",
    "C54_cut_at_unescaped",
    "C54_parts_partial",
    "C54_number_of_parts"
   ],
   "note": "Proved when nothing is escaped; refuted: with escapes text is lost."
  },
  {
   "property": "C55",
   "status": "proved",
   "theorems": [
    "C55_exactly_one_source",
    "C55_source_used"
   ],
   "note": ""
  },
  {
   "property": "C56",
   "status": "partial",
   "theorems": [
    "C56_run_feeds",
    "C56_failure_stops",
    "C56_pop_add_partial",
    "C56_pop_add_tasks",
    "C56_pop_add_refuted"
   ],
   "note": "Proved, except that pop_task after add_task restores attributes only when the name was not in use (refuted otherwise)."
  },
  {
   "property": "C57",
   "status": "proved",
   "theorems": [
    "C57_parser_error",
    "C57_other_errors",
    "C57_success",
    "C57_cases"
   ],
   "note": ""
  },
  {
   "property": "C58",
   "status": "partial",
   "theorems": [
    "C58_make_partial",
    "C58_make_runs_linter_refuted",
    "C58_make_handrails_refuted",
    "C58_make_no_handrails_refuted",
    "C58_processor_options"
   ],
   "note": "Refuted: make passes its options by position to the wrong parameters. Proved: what make does, and that the other applications honour theirs."
  },
  {
   "property": "C59",
   "status": "partial",
   "theorems": [
    "C59_shown_iff_level",
    "C59_processor",
    "C59_lint_shown_by_linter",
    "C59_lint_shown_by_processor_partial",
    "C59_lint_shown_by_processor_refuted",
    "C59_linter_level_refuted"
   ],
   "note": "Proved without the linter. Refuted: a processor with the linter on hides lint messages at the default level; the linter application ignores the level."
  },
  {
   "property": "C60",
   "status": "partial",
   "theorems": [
    "C60_once_in_order",
    "C60_flushed",
    "C60_kept_without_target",
    "C60_once_refuted"
   ],
   "note": "Proved for targets that do not raise; refuted for those that do."
  },
  {
   "property": "C61",
   "status": "proved",
   "theorems": [
    "C61_lint_exact",
    "C61_once"
   ],
   "note": ""
  },
  {
   "property": "C62",
   "status": "partial",
   "theorems": [
    "C62_page",
    "C62_title_unique",
    "C62_files",
    "C62_assets_copied_partial",
    "C62_builds",
    "C62_missing_asset",
    "C62_assets_copied_refuted",
    "C62_external_asset_refuted",
    "C62_package_asset_refuted"
   ],
   "note": "Proved, except that assets with the same name overwrite each other and that external assets make the build fail (both refuted)."
  },
  {
   "property": "C63",
   "status": "partial",
   "theorems": [
    "C63_render",
    "C63_make",
    "C63_lint_partial",
    "C63_builds",
    "C63_prints",
    "C63_silent",
    "C63_format",
    "C63_lint_verbose_refuted",
    "C63_make_lineno_refuted"
   ],
   "note": "Proved, except that lint ignores -v and make ignores --log-no-lineno (refuted). How argparse splits words is not modelled."
  },
  {
   "property": "C64",
   "status": "proved",
   "theorems": [
    "C64_write_touches",
    "C64_write_all"
   ],
   "note": ""
  },
  {
   "property": "C65",
   "status": "partial",
   "theorems": [
    "C65_exceptions_partial",
    "C65_exceptions_occur",
    "C65_parser_error_only_refuted"
   ],
   "note": "Refuted as stated: the exceptions of nodes, IndexError, ValueError, AssertionError, KeyError and TypeError also leave the parser. Proved: nothing else does, in particular no AttributeError, and each of these does occur. Missing: meta data with the key parent is outside the model."
  },
  {
   "property": "C66",
   "status": "partial",
   "theorems": [
    "C66_verbatim_kept_partial",
    "C66_indentation_kept_refuted"
   ],
   "note": "Refuted: white space at the ends is lost. Proved: everything else is kept."
  },
  {
   "property": "C67",
   "status": "proved",
   "theorems": [
    "C67_html_nested",
    "C67_returns_pieces",
    "C67_pieces_returned"
   ],
   "note": "Sources that parse without errors, with displayed formulas in paragraphs (refuted otherwise, see C38). The syntax tree is the input."
  },
  {
   "property": "C68",
   "status": "proved",
   "theorems": [
    "C68_texts_shown"
   ],
   "note": "Without handrails. Titles made by the translator are further texts."
  },
  {
   "property": "C69",
   "status": "proved",
   "theorems": [
    "C69_references_link"
   ],
   "note": "Without handrails. Not for labels of contents, citations and nodes whose elements have no id."
  },
  {
   "property": "C70",
   "status": "proved",
   "theorems": [
    "C70_calls_independent",
    "C70_any_memory",
    "C70_memory_stays_fresh"
   ],
   "note": "The files of the working directory may differ after make; they are part of the comparison."
  },
  {
   "property": "C71",
   "status": "partial",
   "theorems": [
    "C71_render_writes_nothing",
    "C71_lint_writes_nothing",
    "C71_make_all_or_nothing",
    "C71_make_touches",
    "C71_handrails_parameter_refuted"
   ],
   "note": "Proved, except for the parameter handrails of make, which has no effect (refuted)."
  },
  {
   "property": "C72",
   "status": "proved",
   "theorems": [
    "C72_transform_returns"
   ],
   "note": "References to labels that nothing carries are not mistakes: they are reported and replaced by error nodes."
  },
  {
   "property": "C73",
   "status": "proved",
   "theorems": [
    "C73_translate_returns",
    "C73_handrails_returns"
   ],
   "note": ""
  },
  {
   "property": "C74",
   "status": "proved",
   "theorems": [
    "C74_transform_prepares",
    "C74_shown",
    "C74_shown_handrails"
   ],
   "note": "The template of reference texts may contain only the two fields and no other braces (a template with doubled braces breaks in an appendix)."
  },
  {
   "property": "C75",
   "status": "proved",
   "theorems": [
    "C75_render_returns"
   ],
   "note": "That the parser returns is a hypothesis here (see C76); that its result is a manuscript of the right classes and types is proved."
  },
  {
   "property": "C76",
   "status": "proved",
   "theorems": [
    "C76_parse_returns",
    "C76_render_returns",
    "C76_other_shapes"
   ],
   "note": "The grammar is not in the repository; the shape that the parser needs is described in SpecShape.v."
  },
  {
   "property": "C77",
   "status": "proved",
   "theorems": [
    "C77_lint_reports",
    "C77_lint_returns",
    "C77_make_returns"
   ],
   "note": "The mistakes that count are those of C76."
  },
  {
   "property": "C78",
   "status": "proved",
   "theorems": [
    "C78_page_assembled",
    "C78_page_rendered"
   ],
   "note": "Also for what render returns for a source. Without handrails. Line breaks, the p elements and the attributes id, class, href, target, tabindex and data-nodeid are not compared here; ids, classes and links are covered by C38-C43."
  },
  {
   "property": "C79",
   "status": "proved",
   "theorems": [
    "C79_read_back",
    "C79_read_back_handrails",
    "C79_nested",
    "C79_nested_handrails",
    "C79_ids_unique",
    "C79_references",
    "C79_markup_refuted"
   ],
   "note": "The reader (SpecRead.v) follows the tokenizer of the HTML standard for tags, attributes and text; it knows no character references, comments or elements with raw text. The hypothesis excludes markup characters; with them the claim is refuted (C79_markup_refuted). The highlighter is assumed to write no tags for the languages used."
  },
  {
   "property": "C80",
   "status": "proved",
   "theorems": [
    "C80_read_back",
    "C80_nested",
    "C80_texts_shown",
    "C80_references_link",
    "C80_markup_refuted"
   ],
   "note": "The highlighter is assumed to turn texts without tags into texts without tags. The statements on texts and links are for the plain translator, those on reading back and nesting for both. With a tag in a text the claim is refuted (C80_markup_refuted): texts are not escaped."
  },
  {
   "property": "C81",
   "status": "proved",
   "theorems": [
    "C81_make_again",
    "C81_same_file",
    "C81_page_as_figure_refuted",
    "C81_source_kept_refuted"
   ],
   "note": "The two exceptions are shown to be ones: C81_page_as_figure_refuted and C81_source_kept_refuted. The files of the package are assumed to lie in one directory, as they do."
  },
  {
   "property": "C82",
   "status": "proved",
   "theorems": [
    "C82_title",
    "C82_lines_refuted",
    "C82_no_title_refuted",
    "C82_comment_refuted"
   ],
   "note": "With and without the linter. A title of two lines is not found (C82_lines_refuted), and without a title a text may provide it (C82_no_title_refuted). With the linter, the default of make, a comment of the source may provide it (C82_comment_refuted)."
  },
  {
   "property": "C83",
   "status": "proved",
   "theorems": [
    "C83_first_mistake",
    "C83_outcomes",
    "C83_translated_iff",
    "C83_source_first",
    "C83_source_iff",
    "C83_rails_first",
    "C83_rails_outcomes",
    "C83_rails_iff",
    "C83_source_rails_first",
    "C83_source_rails_iff",
    "C83_render_first",
    "C83_render_iff",
    "C83_render_outcomes",
    "C83_make_outcomes",
    "C83_lint_outcomes",
    "C83_lint_passes",
    "C83_linted_refuted"
   ],
   "note": "The mistakes are listed in SpecStuck.v, with their exceptions. The statements on the source are for formulas outside of lists, steps and captions, and all outcomes of render and make for sections nested as a table of contents needs them. With handrails, formulas are taken to be in paragraphs and the table of contents to list sections. That lint returns is no promise that render does (C83_linted_refuted)."
  }
 ]
}