{
 "claims": [
  {
   "property": "C01",
   "status": "proved",
   "theorems": [
    "C01_buffer_reads",
    "C01_cursor_refines_buffer"
   ],
   "note": "Index buffer as written, and its equivalence with the (position, rest) view used by the tokenizer model."
  },
  {
   "property": "C02",
   "status": "proved",
   "theorems": [
    "C02_get_symbol_returns"
   ],
   "note": ""
  },
  {
   "property": "C03",
   "status": "proved",
   "theorems": [
    "C03_finishes",
    "C03_eof_absorbs"
   ],
   "note": ""
  },
  {
   "property": "C04",
   "status": "proved",
   "theorems": [
    "C04_position_monotone",
    "C04_bounds",
    "C04_no_overflow"
   ],
   "note": ""
  },
  {
   "property": "C05",
   "status": "proved",
   "theorems": [
    "C05_token_span",
    "C05_spans_ordered"
   ],
   "note": ""
  },
  {
   "property": "C06",
   "status": "partial",
   "theorems": [
    "C06_tiling_partial",
    "C06_refuted"
   ],
   "note": "Everything but the leading blanks of lines is covered exactly once; covering those too is false of the code (C06_refuted)."
  },
  {
   "property": "C07",
   "status": "proved",
   "theorems": [
    "C07_texts_verbatim",
    "C07_comments_verbatim"
   ],
   "note": "The one exception the property names, a 0 at the end of the text, is in the statement."
  },
  {
   "property": "C08",
   "status": "proved",
   "theorems": [
    "C08_operator_taken",
    "C08_operator_longest"
   ],
   "note": ""
  },
  {
   "property": "C09",
   "status": "proved",
   "theorems": [
    "C09_keyword_taken",
    "C09_keyword_word"
   ],
   "note": ""
  },
  {
   "property": "C10",
   "status": "proved",
   "theorems": [
    "C10_name_taken",
    "C10_name_word"
   ],
   "note": ""
  },
  {
   "property": "C11",
   "status": "proved",
   "theorems": [
    "C11_radix_decided",
    "C11_radix_token"
   ],
   "note": ""
  },
  {
   "property": "C12",
   "status": "partial",
   "theorems": [
    "C12_decimal_partial",
    "C12_parts_exist",
    "C12_point_float_partial",
    "C12_python_decimals_accepted",
    "C12_refuted"
   ],
   "note": "Exact decision as coded, and all literals of the reference accepted; the converse is false: an exponent needs no digits (C12_refuted)."
  },
  {
   "property": "C13",
   "status": "partial",
   "theorems": [
    "C13_refuted",
    "C13_zero_never_alone",
    "C13_zero_decided"
   ],
   "note": "The full claim is false; proved instead: no number token is ever 0 alone, and the exact decision after a 0."
  },
  {
   "property": "C14",
   "status": "proved",
   "theorems": [
    "C14_single_taken",
    "C14_single_unterminated",
    "C14_string_shape"
   ],
   "note": ""
  },
  {
   "property": "C15",
   "status": "proved",
   "theorems": [
    "C15_triple_taken",
    "C15_triple_unterminated",
    "C14_string_shape"
   ],
   "note": ""
  },
  {
   "property": "C16",
   "status": "partial",
   "theorems": [
    "C16_refuted",
    "C16_escaped_quote_ends"
   ],
   "note": "The full claim is false; proved instead: the first escaped quote always ends the string."
  },
  {
   "property": "C17",
   "status": "partial",
   "theorems": [
    "C17_prefix_taken",
    "C17_prefix_unterminated",
    "C17_other_words",
    "C17_bytes_prefix_refuted"
   ],
   "note": "Proved for r, u, f and combinations; the bytes prefixes are always separate names."
  },
  {
   "property": "C18",
   "status": "proved",
   "theorems": [
    "C18_brackets_nest",
    "C18_closer_decided"
   ],
   "note": ""
  },
  {
   "property": "C19",
   "status": "proved",
   "theorems": [
    "C19_no_layout_inside_brackets",
    "C19_no_layout_inside_brackets_error"
   ],
   "note": ""
  },
  {
   "property": "C20",
   "status": "proved",
   "theorems": [
    "C20_indents_balance"
   ],
   "note": ""
  },
  {
   "property": "C21",
   "status": "partial",
   "theorems": [
    "C21_final_newline_partial",
    "C21_refuted"
   ],
   "note": "Holds for texts ending right after a Newline token; false otherwise (C21_refuted)."
  },
  {
   "property": "C22",
   "status": "partial",
   "theorems": [
    "C22_never_rejected",
    "C22_loose_dedent_refuted",
    "C22_refuted"
   ],
   "note": "The full claim is false: such lines are never rejected; what they do instead is proved."
  },
  {
   "property": "C23",
   "status": "partial",
   "theorems": [
    "C23_blank_line_partial",
    "C23_refuted"
   ],
   "note": "The call on a blank line gives no layout token and leaves the levels; the claim about the following line is false (C23_refuted)."
  },
  {
   "property": "C24",
   "status": "partial",
   "theorems": [
    "C24_newline_as_coded",
    "C24_exact_unless_crlf_partial",
    "C24_trivia_sources",
    "C24_refuted"
   ],
   "note": "Exact for CR and LF; false for CR LF."
  },
  {
   "property": "C25",
   "status": "proved",
   "theorems": [
    "C25_line_start",
    "C25_column_exists"
   ],
   "note": ""
  },
  {
   "property": "C26",
   "status": "proved",
   "theorems": [
    "C26_comment",
    "C26_type_comment_token",
    "C24_trivia_sources"
   ],
   "note": ""
  },
  {
   "property": "C27",
   "status": "proved",
   "theorems": [
    "C27_continuation",
    "C27_continuation_error"
   ],
   "note": ""
  },
  {
   "property": "C28",
   "status": "proved",
   "theorems": [
    "C28_unknown_stays",
    "C28_unknown_only"
   ],
   "note": ""
  },
  {
   "property": "C29",
   "status": "proved",
   "theorems": [
    "C29_round_trip"
   ],
   "note": "For whole indented texts, any blanks and tabs between the tokens, all literals of the spec."
  },
  {
   "property": "C30",
   "status": "proved",
   "theorems": [
    "C30_expressions_return"
   ],
   "note": ""
  },
  {
   "property": "C31",
   "status": "partial",
   "theorems": [
    "C31_statements_return_partial",
    "C31_no_trigger_returns",
    "C31_import_refuted",
    "C31_match_refuted"
   ],
   "note": "The full claim is false: import never returns and match panics. Those are shown to be the only cases."
  },
  {
   "property": "C32",
   "status": "proved",
   "theorems": [
    "C32_accepts_exactly",
    "C32_unambiguous"
   ],
   "note": ""
  },
  {
   "property": "C33",
   "status": "proved",
   "theorems": [
    "C33_tokens_kept"
   ],
   "note": ""
  },
  {
   "property": "C34",
   "status": "proved",
   "theorems": [
    "C34_node_spans"
   ],
   "note": "For every function but the annotated assignment called on its own, whose target node is an argument."
  },
  {
   "property": "C35",
   "status": "proved",
   "theorems": [
    "C35_canonical_text",
    "C35_parentheses",
    "C35_no_parentheses",
    "C35_exact",
    "C35_unambiguous",
    "C35_phrase",
    "C35_every_tree"
   ],
   "note": "Trees with slices and starred parameters are outside the tree language of C35; C48 covers their operands, C63 says that nothing else is."
  },
  {
   "property": "C36",
   "status": "proved",
   "theorems": [
    "C36_every_token_consumed",
    "C36_error_fails",
    "C36_error_first",
    "C36_error_after"
   ],
   "note": ""
  },
  {
   "property": "C37",
   "status": "proved",
   "theorems": [
    "C37_end_of_file"
   ],
   "note": ""
  },
  {
   "property": "C38",
   "status": "proved",
   "theorems": [
    "C38_source_order",
    "C38_separator_counts"
   ],
   "note": ""
  },
  {
   "property": "C39",
   "status": "partial",
   "theorems": [
    "C39_clauses_alike_partial",
    "C39_flag_local",
    "C39_refuted"
   ],
   "note": "Proved when no try statement is nested in the clause; the full claim is false, both ways, for nested try statements."
  },
  {
   "property": "C40",
   "status": "partial",
   "theorems": [
    "C40_never_accepted",
    "C40_statement_rejected",
    "C40_module_rejected",
    "C40_refuted"
   ],
   "note": "The full claim is false: no decorated definition is ever accepted."
  },
  {
   "property": "C41",
   "status": "partial",
   "theorems": [
    "C41_async_def_rejected",
    "C41_parameters_rejected",
    "C41_refuted"
   ],
   "note": "The full claim is false: both are always rejected."
  },
  {
   "property": "C42",
   "status": "partial",
   "theorems": [
    "C42_tuple_list_partial",
    "C42_set_partial",
    "C42_set_comma_partial",
    "C42_dictionary_one_partial",
    "C42_dictionary_two_partial",
    "C42_empty_braces_rejected",
    "C42_dictionary_three_rejected",
    "C42_trailing_comma_rejected",
    "C42_refuted"
   ],
   "note": "The full claim is false for the empty braces, dictionaries with a third entry and a comma at the end of a tuple or list; proved for the others."
  },
  {
   "property": "C43",
   "status": "partial",
   "theorems": [
    "C43_keyword_rejected",
    "C43_star_rejected",
    "C43_slice_takes_bracket",
    "C43_refuted"
   ],
   "note": "The full claim is false."
  },
  {
   "property": "C44",
   "status": "partial",
   "theorems": [
    "C44_message_rejected",
    "C44_from_accepted",
    "C44_refuted"
   ],
   "note": "The full claim is false: the message is always rejected, and 'from' accepted."
  },
  {
   "property": "C45",
   "status": "proved",
   "theorems": [
    "C45_tokens_specified",
    "C45_specified_tokens"
   ],
   "note": ""
  },
  {
   "property": "C46",
   "status": "partial",
   "theorems": [
    "C46_plain_target_rejected",
    "C46_accepted_targets",
    "C46_refuted"
   ],
   "note": "The full claim is false: a plain target is always rejected."
  },
  {
   "property": "C47",
   "status": "proved",
   "theorems": [
    "C47_tree_reads_back"
   ],
   "note": ""
  },
  {
   "property": "C48",
   "status": "proved",
   "theorems": [
    "C48_tree_schema",
    "C48_async_def"
   ],
   "note": ""
  },
  {
   "property": "C49",
   "status": "proved",
   "theorems": [
    "C49_error_place",
    "C49_error_final"
   ],
   "note": "The look-ahead may be one past the end of the text (CR LF counts for three characters, C24)."
  },
  {
   "property": "C50",
   "status": "proved",
   "theorems": [
    "C50_decided_by_tokens"
   ],
   "note": ""
  },
  {
   "property": "C51",
   "status": "proved",
   "theorems": [
    "C51_main"
   ],
   "note": ""
  },
  {
   "property": "C52",
   "status": "proved",
   "theorems": [
    "C52_parsed",
    "C52_unambiguous",
    "C52_canonical_text",
    "C52_text_injective",
    "C52_by_tokens"
   ],
   "note": ""
  },
  {
   "property": "C53",
   "status": "proved",
   "theorems": [
    "C53_exact",
    "C53_layout",
    "C53_lines"
   ],
   "note": ""
  },
  {
   "property": "C54",
   "status": "proved",
   "theorems": [
    "C54_layout_independent",
    "C54_respaced"
   ],
   "note": ""
  },
  {
   "property": "C55",
   "status": "proved",
   "theorems": [
    "C55_written_out_scanned",
    "C55_written_out_parsed",
    "C55_tree_written_out",
    "C55_written_out_again"
   ],
   "note": ""
  },
  {
   "property": "C56",
   "status": "proved",
   "theorems": [
    "C56_streams_exact",
    "C56_stream_prefix",
    "C56_newline_after_token"
   ],
   "note": ""
  },
  {
   "property": "C57",
   "status": "proved",
   "theorems": [
    "C57_file_newlines",
    "C57_eval_newlines",
    "C57_func_type_newlines",
    "C57_single_simple_only",
    "C57_single_no_compound"
   ],
   "note": ""
  },
  {
   "property": "C58",
   "status": "partial",
   "theorems": [
    "C58_accepted_is_python_partial",
    "C58_single_is_python_partial",
    "C58_phrase_is_python_partial",
    "C58_accepted_is_python_refuted"
   ],
   "note": "The unconditional claim is false of the code (C58_accepted_is_python_refuted: one accepted non-Python text for each departure); proved for all texts whose tree shows none of the departures listed in PythonSpec.v."
  },
  {
   "property": "C59",
   "status": "proved",
   "theorems": [
    "C59_files_exact",
    "C59_expressions_exact",
    "C59_function_types_exact",
    "C59_single_exact",
    "C59_kinds_decide",
    "C59_plain_needed",
    "C59_no_match_needed"
   ],
   "note": ""
  },
  {
   "property": "C60",
   "status": "partial",
   "theorems": [
    "C60_core_files_partial",
    "C60_core_expressions_partial",
    "C60_core_function_types_partial",
    "C60_python_accepted_refuted"
   ],
   "note": "That every sentence of Python is accepted is false of the code (C60_python_accepted_refuted); proved for the core grammar in CoreGrammar.v."
  },
  {
   "property": "C61",
   "status": "partial",
   "theorems": [
    "C61_error_justified",
    "C61_truthful_partial",
    "C61_truthful_refuted"
   ],
   "note": "That every message says what is the case is false of nine messages (C61_truthful_refuted, C61_departures); proved for the other 168, with the place of every message (C61_error_justified)."
  },
  {
   "property": "C62",
   "status": "partial",
   "theorems": [
    "C62_errors_sound",
    "C62_errors_exactly",
    "C62_stated_partial",
    "C62_stated_refuted",
    "C62_bracket_message",
    "C62_symbol_expected"
   ],
   "note": "Which errors there are, their messages and places: proved exactly. That the messages are right about the text is false of the code (C62_stated_refuted, C62_bracket_message); proved for the others (C62_stated_partial)."
  },
  {
   "property": "C63",
   "status": "proved",
   "theorems": [
    "C63_module",
    "C63_accepted",
    "C63_values",
    "C63_interactive",
    "C63_expression",
    "C63_statement"
   ],
   "note": "Proved in full."
  },
  {
   "property": "C64",
   "status": "partial",
   "theorems": [
    "C64_tree_determines_tokens_partial",
    "C64_tokens_determine_tree",
    "C64_phrases_partial",
    "C64_star_refuted",
    "C64_slash_refuted",
    "C64_class_refuted",
    "C64_types_refuted"
   ],
   "note": "Both directions are proved for all accepted inputs, the one from trees to tokens unless * or / stands among other parameters: without that condition it is false of the code (refuted for lambdas, class bases and function types)."
  },
  {
   "property": "C65",
   "status": "partial",
   "theorems": [
    "C65_depth_by_nesting_partial",
    "C65_depth_by_amount",
    "C65_depth_by_nesting_refuted",
    "C65_nesting_needed",
    "C65_measured"
   ],
   "note": "The bound by nesting is proved for all texts without slices, the bound by the number of brackets, indents and nesting words for all texts. With slices the nesting is no bound: refuted for every depth. The lower bound is proved for nested parentheses."
  },
  {
   "property": "C66",
   "status": "proved",
   "theorems": [
    "C66_tokens_joined",
    "C66_chain_joined",
    "C66_files_joined",
    "C66_modules_joined",
    "C66_modules_chained",
    "C66_open_block_refuted",
    "C66_carriage_return_refuted"
   ],
   "note": "Proved in full under the stated conditions, which the two refutations show to be needed."
  },
  {
   "property": "C67",
   "status": "proved",
   "theorems": [
    "C67_meter_same",
    "C67_steps_linear",
    "C67_steps_by_length",
    "C67_taken_once"
   ],
   "note": "Proved in full. The steps are counted by a copy of the parser over a counting monad, proved to give the same results (C67_meter_same)."
  },
  {
   "property": "C68",
   "status": "proved",
   "theorems": [
    "C68_nodes_linear",
    "C68_nodes_of_text",
    "C68_nodes_by_length"
   ],
   "note": "Proved in full."
  },
  {
   "property": "C69",
   "status": "proved",
   "theorems": [
    "C69_tables_local",
    "C69_ascii"
   ],
   "note": "Proved in full."
  },
  {
   "property": "C70",
   "status": "partial",
   "theorems": [
    "C70_height_partial",
    "C70_height_of_text_partial",
    "C70_height_by_nesting_refuted"
   ],
   "note": "The bound by nesting is refuted; a bound by the number of tokens is proved."
  },
  {
   "property": "C71",
   "status": "partial",
   "theorems": [
    "C71_session_partial",
    "C71_second_loses_partial",
    "C71_no_token_lost_refuted",
    "C71_no_error_lost_refuted"
   ],
   "note": "The full claim is refuted; that every other token is kept, in order, is proved."
  },
  {
   "property": "C72",
   "status": "proved",
   "theorems": [
    "C72_flag_forgotten",
    "C72_inputs",
    "C72_sessions"
   ],
   "note": "Proved in full."
  },
  {
   "property": "C73",
   "status": "proved",
   "theorems": [
    "C73_end_final",
    "C73_end_again"
   ],
   "note": "Proved in full."
  },
  {
   "property": "C74",
   "status": "proved",
   "theorems": [
    "C74_error_goes_on",
    "C74_settles",
    "C74_end_reached",
    "C74_reaches_end_refuted"
   ],
   "note": "Proved in full; that the answer is always the end marker is refuted."
  }
 ]
}