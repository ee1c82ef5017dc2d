{
 "claims": [
  {
   "property": "C01",
   "status": "proved",
   "theorems": [
    "C01_constructor",
    "C01_order_independent"
   ],
   "note": "Constructor decides a declarative validity predicate; result canonical; dict order irrelevant."
  },
  {
   "property": "C02",
   "status": "proved",
   "theorems": [
    "C02_type_round_trip",
    "C02_canonical_round_trip",
    "C02_all_canonical_built",
    "C02_empty_row_refuted",
    "C02_negative_scale_refuted",
    "C02_bool_length_refuted"
   ],
   "note": "For all objects built with non-negative ints, no bool as int, no empty ROW; the exclusions are shown necessary."
  },
  {
   "property": "C03",
   "status": "proved",
   "theorems": [
    "C03_text_unambiguous"
   ],
   "note": "Same domain as C02."
  },
  {
   "property": "C04",
   "status": "proved",
   "theorems": [
    "C04_lower_case",
    "C04_interval_refuted"
   ],
   "note": "Interval-free types; INTERVAL refuted."
  },
  {
   "property": "C05",
   "status": "proved",
   "theorems": [
    "C05_arithmetic_symmetric",
    "C05_arithmetic_idempotent"
   ],
   "note": ""
  },
  {
   "property": "C06",
   "status": "proved",
   "theorems": [
    "C06_result_holds_operands",
    "C06_result_least",
    "C06_decimal_raises_iff"
   ],
   "note": "Also least and exact error condition."
  },
  {
   "property": "C07",
   "status": "proved",
   "theorems": [
    "C07_supertype_symmetric",
    "C07_supertype_idempotent"
   ],
   "note": ""
  },
  {
   "property": "C08",
   "status": "proved",
   "theorems": [
    "C08_integer_type",
    "C08_beyond_64_bits_refuted"
   ],
   "note": ""
  },
  {
   "property": "C09",
   "status": "proved",
   "theorems": [
    "C09_decimal_type",
    "C09_exponent_refuted"
   ],
   "note": ""
  },
  {
   "property": "C10",
   "status": "proved",
   "theorems": [
    "C10_default_join",
    "C10_pretty_breaks",
    "C10_pretty_width",
    "C10_raises",
    "C10_width_long_delimiter_refuted"
   ],
   "note": ""
  },
  {
   "property": "C11",
   "status": "proved",
   "theorems": [
    "C11_default_layout",
    "C11_entries",
    "C11_pretty_river",
    "C11_same_words"
   ],
   "note": ""
  },
  {
   "property": "C12",
   "status": "proved",
   "theorems": [
    "C12_pad_lines",
    "C12_lines_unique",
    "C12_pad_single_line"
   ],
   "note": ""
  },
  {
   "property": "C34",
   "status": "proved",
   "theorems": [
    "C34_values_widest",
    "C34_values_row_order",
    "C34_values_uniform",
    "C34_coalesce_widest",
    "C34_order_refuted",
    "C34_coalesce_nulls_refuted"
   ],
   "note": "Order independence holds for integer/floating rows; refuted in general."
  },
  {
   "property": "C36",
   "status": "proved",
   "theorems": [
    "C36_supertype_holds_operands",
    "C36_string_supertype_length",
    "C36_same_name_refuted",
    "C36_string_supertype_exact",
    "C36_varchar_arithmetic",
    "C36_same_name_unknown"
   ],
   "note": ""
  },
  {
   "property": "C32",
   "status": "proved",
   "theorems": [
    "C32_registry_bijection",
    "C32_names_distinct",
    "C32_printed_name",
    "C32_call_parsed",
    "C32_approx_percentile_refuted"
   ],
   "note": "Argument order refuted for APPROX_PERCENTILE with three arguments only."
  },
  {
   "property": "C38",
   "status": "proved",
   "theorems": [
    "C38_registered_without_imports",
    "C38_unregistered_call_raises"
   ],
   "note": ""
  },
  {
   "property": "C19",
   "status": "proved",
   "theorems": [
    "C19_tokens",
    "C19_pretty_expression",
    "C19_line_break_refuted",
    "C19_default_case_refuted"
   ],
   "note": "For all objects whose texts are single tokens (predicate lexable, independent of tree shape) and all printing options, not only the two modes; line breaks in literals refuted."
  },
  {
   "property": "C21",
   "status": "proved",
   "theorems": [
    "C21_pretty_query",
    "C19_tokens"
   ],
   "note": "Same predicate, all query and relation objects."
  },
  {
   "property": "C13",
   "status": "proved",
   "theorems": [
    "C13_string_round_trip",
    "C13_one_token_iff",
    "C13_edge_needed",
    "C13_break_out_refuted",
    "C13_edge_lost_refuted"
   ],
   "note": "Both conditions are shown to be necessary; a quote inside lets the rest be read as SQL."
  },
  {
   "property": "C14",
   "status": "proved",
   "theorems": [
    "C14_column_round_trip",
    "C14_qualified_round_trip",
    "C14_one_token_iff",
    "C14_edge_needed"
   ],
   "note": ""
  },
  {
   "property": "C15",
   "status": "proved",
   "theorems": [
    "C15_integer_round_trip"
   ],
   "note": ""
  },
  {
   "property": "C16",
   "status": "proved",
   "theorems": [
    "C16_decimal_round_trip",
    "C16_rounding_refuted",
    "C16_exponent_refuted",
    "C16_integral_refuted",
    "C16_negative_zero_refuted",
    "C16_negative_type_refuted"
   ],
   "note": "Sign, coefficient and exponent are kept; the inferred type of a negative literal differs."
  },
  {
   "property": "C17",
   "status": "proved",
   "theorems": [
    "C17_expression_round_trip",
    "C17_arithmetic",
    "C17_conditions",
    "C17_nested_comparison_refuted",
    "C17_negated_equality_refuted",
    "C17_double_minus_refuted",
    "C17_single_row_refuted",
    "C17_subscript_refuted",
    "C17_distinct_from_refuted"
   ],
   "note": "Fragment: lexable (texts) and good (operands); no shape condition for the tree types arith and cond."
  },
  {
   "property": "C18",
   "status": "proved",
   "theorems": [
    "C18_text_unambiguous",
    "C18_tokens_unambiguous",
    "C18_association",
    "C18_shape_refuted"
   ],
   "note": ""
  },
  {
   "property": "C20",
   "status": "proved",
   "theorems": [
    "C20_query_round_trip",
    "C20_text_unambiguous"
   ],
   "note": "SELECT, TABLE and VALUES queries; set operations are C27."
  },
  {
   "property": "C35",
   "status": "proved",
   "theorems": [
    "C35_rest_ignored",
    "C35_unknown_character_ignored",
    "C35_expression_rest_rejected"
   ],
   "note": ""
  },
  {
   "property": "C22",
   "status": "proved",
   "theorems": [
    "C22_clause_order",
    "C22_clause_tokens",
    "C22_zero_dropped",
    "C22_limit_zero_refuted"
   ],
   "note": "Text without line breaks for every SELECT query; tokens in every layout for printable queries.  A count of zero is dropped."
  },
  {
   "property": "C23",
   "status": "proved",
   "theorems": [
    "C23_table_round_trip",
    "C23_buildable",
    "C23_table_text"
   ],
   "note": ""
  },
  {
   "property": "C24",
   "status": "proved",
   "theorems": [
    "C24_order_round_trip",
    "C24_order_text",
    "C24_spellings"
   ],
   "note": "Any list of ordering terms over the expression fragment."
  },
  {
   "property": "C25",
   "status": "proved",
   "theorems": [
    "C25_grouping_round_trip",
    "C25_grouping_columns",
    "C25_window_round_trip",
    "C25_row_refuted"
   ],
   "note": ""
  },
  {
   "property": "C26",
   "status": "proved",
   "theorems": [
    "C26_join_round_trip",
    "C26_any_shape",
    "C26_same_iff",
    "C26_tables_kept",
    "C26_cross_refuted"
   ],
   "note": "C26_any_shape says for every join tree what it is read back as."
  },
  {
   "property": "C33",
   "status": "proved",
   "theorems": [
    "C33_shell_and_parts",
    "C33_binds_unique",
    "C33_parameters_bound",
    "C33_nothing_left",
    "C33_rebuilt",
    "C33_round_trip",
    "C33_subquery_refuted"
   ],
   "note": "A body that contains a table anywhere raises TypeError instead."
  },
  {
   "property": "C27",
   "status": "proved",
   "theorems": [
    "C27_text",
    "C27_attributes_lost",
    "C27_attributes_refuted",
    "C27_read_back",
    "C27_never_same",
    "C27_text_determines"
   ],
   "note": "Reading is stated for every tree of set operations over queries without WITH."
  },
  {
   "property": "C28",
   "status": "proved",
   "theorems": [
    "C28_resolved",
    "C28_complete",
    "C28_unique",
    "C28_idempotent",
    "C28_ambiguous",
    "C28_subquery_refuted"
   ],
   "note": "An expression with a sub-query over a table cannot be resolved at all (TypeError)."
  },
  {
   "property": "C29",
   "status": "proved",
   "theorems": [
    "C29_exactly",
    "C29_single_column",
    "C29_name_ignored",
    "C29_two_columns_raise",
    "C29_unknown_table_raises",
    "C29_refuted"
   ],
   "note": "C29_exactly says what happens in every case."
  },
  {
   "property": "C30",
   "status": "proved",
   "theorems": [
    "C30_left_kept",
    "C30_columns_of_tables",
    "C30_nothing_lost",
    "C30_subqueries_collapse",
    "C30_subquery_and_table_raise",
    "C30_aliases_raise",
    "C30_unnamed_refuted",
    "C30_distinct_names"
   ],
   "note": "The cases in which a column is lost or merging raises are characterised."
  },
  {
   "property": "C31",
   "status": "proved",
   "theorems": [
    "C31_reflexive",
    "C31_symmetric",
    "C31_transitive",
    "C31_times",
    "C31_same_root",
    "C31_same_items",
    "C31_exact_on_joins",
    "C31_exact_on_columns",
    "C31_where_confused",
    "C31_cast_confused",
    "C31_functions_confused",
    "C31_group_confused",
    "C31_refuted"
   ],
   "note": "Below the root the class of an object is ignored; a schema remembered by a resolved table and float values are simplified."
  },
  {
   "property": "C39",
   "status": "proved",
   "theorems": [
    "C39_timestamp_wins",
    "C39_date_with_time",
    "C39_same_kind_raises",
    "C39_sketches"
   ],
   "note": ""
  },
  {
   "property": "C40",
   "status": "proved",
   "theorems": [
    "C40_difference_of_dates",
    "C40_difference_of_times",
    "C40_otherwise_like_sum",
    "C40_precision_refuted"
   ],
   "note": ""
  },
  {
   "property": "C41",
   "status": "proved",
   "theorems": [
    "C41_if_widest",
    "C41_if_single",
    "C41_if_same",
    "C41_null_branch_refuted"
   ],
   "note": ""
  },
  {
   "property": "C42",
   "status": "proved",
   "theorems": [
    "C42_char_length",
    "C42_varchar",
    "C42_unknown",
    "C42_varbinary",
    "C42_arrays_widest",
    "C42_same_arrays",
    "C42_nesting_refuted"
   ],
   "note": ""
  },
  {
   "property": "C43",
   "status": "proved",
   "theorems": [
    "C43_columns_widest",
    "C43_same",
    "C43_width",
    "C43_width_refuted",
    "C43_null_refuted"
   ],
   "note": ""
  },
  {
   "property": "C44",
   "status": "proved",
   "theorems": [
    "C44_output_columns",
    "C44_where_refuted"
   ],
   "note": ""
  },
  {
   "property": "C45",
   "status": "proved",
   "theorems": [
    "C45_closed",
    "C45_with_invisible",
    "C45_scope_refuted"
   ],
   "note": ""
  },
  {
   "property": "C46",
   "status": "proved",
   "theorems": [
    "C46_with_scope",
    "C46_with_column",
    "C46_chain_refuted",
    "C46_names_refuted"
   ],
   "note": ""
  },
  {
   "property": "C47",
   "status": "proved",
   "theorems": [
    "C47_join_columns",
    "C47_names_refuted"
   ],
   "note": ""
  },
  {
   "property": "C48",
   "status": "proved",
   "theorems": [
    "C48_unnest_columns",
    "C48_ordinality_refuted"
   ],
   "note": ""
  },
  {
   "property": "C49",
   "status": "proved",
   "theorems": [
    "C49_alias_columns",
    "C49_alias_resolves",
    "C49_too_many_refuted"
   ],
   "note": ""
  },
  {
   "property": "C50",
   "status": "proved",
   "theorems": [
    "C50_values_raise"
   ],
   "note": ""
  },
  {
   "property": "C51",
   "status": "proved",
   "theorems": [
    "C51_read",
    "C51_read_made",
    "C51_all_raises",
    "C51_every_text",
    "C51_grouping_refuted"
   ],
   "note": ""
  },
  {
   "property": "C37",
   "status": "proved",
   "theorems": [
    "C37_exists_is_none",
    "C37_where_dropped",
    "C37_having_dropped",
    "C37_from_dropped",
    "C37_parenthesised_is_none",
    "C37_not_exists_raises",
    "C37_and_exists_raises",
    "C37_same_object_refuted"
   ],
   "note": "The property does not hold of the code; the theorems say exactly what is lost and where reading raises."
  },
  {
   "property": "C52",
   "status": "proved",
   "theorems": [
    "C52_format_query",
    "C52_format_expression",
    "C52_format_type",
    "C52_tables_resolve",
    "C52_condition_lost_refuted",
    "C52_values_raises_refuted"
   ],
   "note": ""
  },
  {
   "property": "C53",
   "status": "proved",
   "theorems": [
    "C53_twice",
    "C53_text",
    "C53_schema_command",
    "C53_no_name_refuted"
   ],
   "note": ""
  },
  {
   "property": "C54",
   "status": "proved",
   "theorems": [
    "C54_only_attribute_error",
    "C54_when",
    "C54_at_most_once",
    "C54_all_in_order",
    "C54_select_raises",
    "C54_join_raises",
    "C54_lambda_raises",
    "C54_keywords_passed_over",
    "C54_window",
    "C54_groupby",
    "C54_all_seen_refuted",
    "C54_order_refuted"
   ],
   "note": ""
  },
  {
   "property": "C55",
   "status": "proved",
   "theorems": [
    "C55_query",
    "C55_expression",
    "C55_type",
    "C55_layout",
    "C55_written_query",
    "C55_written_expression",
    "C55_respelled_query",
    "C55_respelled_expression",
    "C55_distinct_refuted",
    "C55_soft_words_refuted",
    "C55_mixed_case_refuted"
   ],
   "note": ""
  },
  {
   "property": "C56",
   "status": "proved",
   "theorems": [
    "C56_root",
    "C56_parts",
    "C56_queries"
   ],
   "note": "Both directions, so it also says which wrong comparisons the code makes. Floats are compared by text."
  },
  {
   "property": "C57",
   "status": "proved",
   "theorems": [
    "C57_faithful",
    "C57_parts",
    "C57_types",
    "C57_expression",
    "C57_same_tree",
    "C57_any_refuted",
    "C57_attributes",
    "C57_class",
    "C57_keys"
   ],
   "note": "How nltk draws the tree is not modelled. After resolve a set query keeps its old data type in Python; the model shows the new one."
  },
  {
   "property": "C58",
   "status": "proved",
   "theorems": [
    "C58_expression_well",
    "C58_query_well",
    "C58_parts_accepted",
    "C58_variables_bound",
    "C58_columns_free",
    "C58_windows_distinct",
    "C58_integer_type",
    "C58_string_type",
    "C58_string_quotes",
    "C58_string_quotes_refuted",
    "C58_float",
    "C58_no_float",
    "C58_column",
    "C58_cast_type",
    "C58_join_criterion",
    "C58_table_schema",
    "C58_ignore_nulls",
    "C58_function",
    "C58_row_counts",
    "C58_type_built",
    "C58_format_type"
   ],
   "note": "For the parts of the grammar that the model reads; the others give an error in the model."
  },
  {
   "property": "C59",
   "status": "proved",
   "theorems": [
    "C59_expression",
    "C59_query",
    "C59_lexed_expression",
    "C59_lexed_query",
    "C59_one_expression",
    "C59_one_query"
   ],
   "note": "The rules are derives in Grammar.v; DESIGN.md lists the alternatives of the grammar that have no rule."
  },
  {
   "property": "C60",
   "status": "proved",
   "theorems": [
    "C60_expression",
    "C60_query",
    "C60_no_expression",
    "C60_no_query",
    "C60_select",
    "C60_filter",
    "C60_case",
    "C60_escape",
    "C60_compared_raises"
   ],
   "note": "Generalises C37 to all forms without a visitor and to every text of the grammar."
  },
  {
   "property": "C61",
   "status": "proved",
   "theorems": [
    "C61_no_expression",
    "C61_leading",
    "C61_right",
    "C61_argument",
    "C61_cast",
    "C61_item",
    "C61_in_list",
    "C61_in_one",
    "C61_row"
   ],
   "note": "The left operand of C61_right is any expression of the round trip; C61_argument is about functions that are called by name."
  },
  {
   "property": "C62",
   "status": "proved",
   "theorems": [
    "C62_types",
    "C62_unique",
    "C62_read",
    "C62_join",
    "C62_set",
    "C62_select_type",
    "C62_union_columns_refuted"
   ],
   "note": "The typing rules refer to common_supertype, get_arithmetic_type, fn_type and arity_ok of the model; those are the subject of C05-C07, C32, C36 and C38."
  },
  {
   "property": "C63",
   "status": "proved",
   "theorems": [
    "C63_expression",
    "C63_query",
    "C63_type",
    "C63_brackets",
    "C63_query_brackets",
    "C63_type_brackets",
    "C63_query_start",
    "C63_derived"
   ],
   "note": "Converse of C59: C59 says that phrases are accepted, C63 that nothing else is. The rules use the typing judgement of C62 for what can be built, and subst of Walk.v for the bodies of lambdas."
  },
  {
   "property": "C64",
   "status": "proved",
   "theorems": [
    "C64_default",
    "C64_uescape",
    "C64_all_texts",
    "C64_not_a_code",
    "C64_uescape_not_a_code",
    "C64_backslash_refuted",
    "C64_quotes_refuted",
    "C64_empty_escape_refuted",
    "C64_print_refuted"
   ],
   "note": "Text in the model consists of characters up to 255; a code above 00FF is NotModelled. The decoder is CPython's, not part of the repository."
  },
  {
   "property": "C65",
   "status": "proved",
   "theorems": [
    "C65_value",
    "C65_exponent_unreadable",
    "C65_print_read",
    "C65_never_survives"
   ],
   "note": "float_repr (the text of a float) is a model of CPython's repr, compared with it on samples; that C65_value gives the nearest float is proved in rational numbers."
  },
  {
   "property": "C66",
   "status": "proved",
   "theorems": [
    "C66_json",
    "C66_table",
    "C66_path_lost",
    "C66_default_lost",
    "C66_array_lost",
    "C66_object_lost",
    "C66_table_lost"
   ],
   "note": "C66_json and C66_table say that the skeletons of the model, which C63 uses, are the rules of the grammar. The theorems on loss have the words that are not reserved in upper case, no RETURNING, PASSING or FORMAT, and arguments that are expressions or tables; for the others there are computed cases."
  },
  {
   "property": "C67",
   "status": "proved",
   "theorems": [
    "C67_needed",
    "C67_printed",
    "C67_fewest",
    "C67_arithmetic",
    "C67_conditions",
    "C67_concatenation_refuted"
   ],
   "note": "C67_needed holds for every text that is accepted; the other side is for the fragment named in the statement (counted, lexable and good of the model). Queries, lambdas and calls without arguments are outside it, since they can be written in several ways."
  },
  {
   "property": "C68",
   "status": "proved",
   "theorems": [
    "C68_text",
    "C68_power",
    "C68_unary",
    "C68_invert",
    "C68_built",
    "C68_not_an_operand",
    "C68_literal_left",
    "C68_literal_compared",
    "C68_member",
    "C68_chain",
    "C68_words",
    "C68_arithmetic",
    "C68_conditions",
    "C68_chain_refuted"
   ],
   "note": "Python dispatch (reflected comparisons, chains, in, and/or/not) is modelled beside the methods. A Python text on the left of % (string formatting) and relations that are no values on the left are outside."
  },
  {
   "property": "C69",
   "status": "proved",
   "theorems": [
    "C69_iff",
    "C69_raises",
    "C69_reflexive",
    "C69_symmetric",
    "C69_contents",
    "C69_contents_refuted"
   ],
   "note": "Equality of attrs 21.2.0, the pinned version. Tables as the parser builds them, without column schema."
  },
  {
   "property": "C70",
   "status": "proved",
   "theorems": [
    "C70_expression",
    "C70_query",
    "C70_names",
    "C70_integers",
    "C70_texts",
    "C70_equal_refuted"
   ],
   "note": "A U& string token counts for any text (its content is C64). Function names, type names, decimals, doubles and intervals are not counted."
  },
  {
   "property": "C71",
   "status": "proved",
   "theorems": [
    "C71_iff",
    "C71_only_attribute_error",
    "C71_base",
    "C71_less",
    "C71_all_outside",
    "C71_parts",
    "C71_everywhere"
   ],
   "note": "The choice to descend depends on the object only, not on what was seen before; results of the methods are not modelled."
  },
  {
   "property": "C72",
   "status": "proved",
   "theorems": [
    "C72_known",
    "C72_remembered",
    "C72_unknown",
    "C72_shared",
    "C72_fresh",
    "C72_by_schema_refuted"
   ],
   "note": "Tables on their own; the resolution of whole queries (C28-C30, C44-C49, C53) is modelled for tables that were not resolved before."
  },
  {
   "property": "C73",
   "status": "proved",
   "theorems": [
    "C73_printed",
    "C73_format_expression",
    "C73_format_query"
   ],
   "note": "Counts the names between quotation marks; names that the printers write bare (columns of an alias, USING, lambda variables, named windows) are not counted."
  },
  {
   "property": "C74",
   "status": "proved",
   "theorems": [
    "C74_printed",
    "C74_names",
    "C74_integers",
    "C74_format",
    "C74_all_refuted"
   ],
   "note": "Decimals are not counted (see C16)."
  },
  {
   "property": "C75",
   "status": "proved",
   "theorems": [
    "C75_fewest",
    "C75_among",
    "C75_statement_refuted"
   ],
   "note": "For delimiters of one character (all that the code uses are)."
  },
  {
   "property": "C76",
   "status": "proved",
   "theorems": [
    "C76_expression",
    "C76_query",
    "C76_depth_expression",
    "C76_depth_query",
    "C76_characters"
   ],
   "note": "Ordering terms, windows, frame bounds and grouping sets are not counted themselves; what is in them is."
  },
  {
   "property": "C77",
   "status": "proved",
   "theorems": [
    "C77_printed",
    "C77_characters",
    "C77_format",
    "C77_all_refuted"
   ],
   "note": "Printable: lexable (Tokens.v), as in C74."
  },
  {
   "property": "C78",
   "status": "proved",
   "theorems": [
    "C78_parses",
    "C78_raises"
   ],
   "note": "In the model a syntax error is an outcome of its own; ANTLR's recovery from it is not modelled."
  },
  {
   "property": "C79",
   "status": "proved",
   "theorems": [
    "C79_supertype",
    "C79_arithmetic",
    "C79_values",
    "C79_set",
    "C79_conditional",
    "C79_concat"
   ],
   "note": "For canonical data types (Types.v)."
  }
 ]
}