{
 "claims": [
  {
   "property": "C01",
   "status": "proved",
   "theorems": [
    "C01_trichotomy",
    "C01_derived_operators",
    "C01_lt_transitive",
    "C01_int_order_is_numeric",
    "C01_string_order_is_lexicographic",
    "C01_float_order_is_numeric"
   ],
   "note": ""
  },
  {
   "property": "C02",
   "status": "partial",
   "theorems": [
    "C02_refuted",
    "C02_gt_converse_of_lt_partial"
   ],
   "note": "Statement is false of the code (C02_refuted): strings and integers are both < and >, booleans are not ordered by >. Proved on numbers/times, strings, NULL, arrays, dicts and queries."
  },
  {
   "property": "C03",
   "status": "partial",
   "theorems": [
    "C03_refuted",
    "C03_equivalence_partial"
   ],
   "note": "Statement is false of the code (C03_refuted). Equivalence proved on NULL, strings, arrays, dicts over integers and booleans in int64 range, or over floats that are not NaN."
  },
  {
   "property": "C04",
   "status": "partial",
   "theorems": [
    "C04_null_operators",
    "C04_null_equality_partial",
    "C04_null_equality_refuted"
   ],
   "note": "NULL equals a nil array (C04_null_equality_refuted); everything else in the statement is proved, for any registered implementations."
  },
  {
   "property": "C05",
   "status": "proved",
   "theorems": [
    "C05_int_arithmetic",
    "C05_add_sub_cancel",
    "C05_chain_is_sum",
    "C05_chain_reorder"
   ],
   "note": ""
  },
  {
   "property": "C06",
   "status": "partial",
   "theorems": [
    "C06_refuted",
    "C06_division_partial"
   ],
   "note": "False for an integer divided by a float (C06_refuted); proved when the left operand is a float or the right one is not."
  },
  {
   "property": "C07",
   "status": "partial",
   "theorems": [
    "C07_refuted",
    "C07_add_bounded",
    "C07_mul_bounded_partial",
    "C07_mul_panics_iff"
   ],
   "note": "`\"\" * -1` and long repetitions whose length wraps 2^64 panic (C07_refuted); exact panic condition proved, and the 100 MB bound for every result."
  },
  {
   "property": "C08",
   "status": "partial",
   "theorems": [
    "C08_not_of_a_stored_query_partial",
    "C08_where_a_stored_query_partial",
    "C08_refuted",
    "C08_truthiness_partial"
   ],
   "note": "float32 and uint host values are always false (C08_refuted); proved for every other value, and for stored queries as conditions: the query is run and is true exactly if it has rows."
  },
  {
   "property": "C09",
   "status": "proved",
   "theorems": [
    "C09_and",
    "C09_or",
    "C09_not",
    "C09_and_value",
    "C09_or_value"
   ],
   "note": ""
  },
  {
   "property": "C10",
   "status": "proved",
   "theorems": [
    "C10_index",
    "C10_slice",
    "C10_other_values"
   ],
   "note": "Arrays and strings; NULL for other values. Stored queries index their materialised rows."
  },
  {
   "property": "C11",
   "status": "proved",
   "theorems": [
    "C11_in_array",
    "C11_in_string",
    "C11_in_dict",
    "C11_in_nothing_else",
    "C11_in_null"
   ],
   "note": ""
  },
  {
   "property": "C12",
   "status": "partial",
   "theorems": [
    "C12_ne_is_negation_partial",
    "C12_refuted",
    "C12_disagree_refuted"
   ],
   "note": "`<>` parses but always evaluates to false (C12_refuted)."
  },
  {
   "property": "C13",
   "status": "partial",
   "theorems": [
    "C13_first_evaluation_partial",
    "C13_every_later_evaluation_ignores_the_sign",
    "C13_second_row_refuted"
   ],
   "note": "Refuted: the sign is honoured only the first time a node is evaluated; afterwards -x is x, for every number and history (C13_every_later_evaluation_ignores_the_sign). Proved for the first evaluation."
  },
  {
   "property": "C14",
   "status": "proved",
   "theorems": [
    "C14_select_is_filter_and_projection",
    "C14_query_yields_its_rows",
    "C14_select_from_variable",
    "C14_subquery_column_of_any_query",
    "C14_rows_in_order_any_expression"
   ],
   "note": "Rows of any FROM clause, any expressions without side effects over any nesting of scopes, in any state; FROM may be a variable (list, dictionary, materialised query) or foreach(), chain(), if(), flatten(), range(); columns and arguments of these plugins may be subqueries with WHERE, ORDER BY and LIMIT, nested to any depth and referring to the row; order preservation for arbitrary expressions is C14_rows_in_order_any_expression, the value of a subquery column for arbitrary queries (including the nil list of an empty one) C14_subquery_column_of_any_query."
  },
  {
   "property": "C15",
   "status": "partial",
   "theorems": [
    "C15_limit_keeps_the_first_rows_partial",
    "C15_limit_yields_only_those",
    "C15_limit_zero_refuted"
   ],
   "note": "LIMIT n >= 1 proved for any query. Refuted: LIMIT 0 emits the first row (C15_limit_zero_refuted)."
  },
  {
   "property": "C16",
   "status": "partial",
   "theorems": [
    "C16_order_by_permutes",
    "C16_order_by_integers_partial",
    "C16_order_by_strings_partial",
    "C16_nulls_first_refuted",
    "C16_uint_column_refuted"
   ],
   "note": "Permutation for any query and key; integer and string columns sorted both ways given the contract of Go's sort (sort_contract, satisfied by insertion_sort). Refuted: a NULL does not sort before the empty string, and columns of host type uint are not sorted."
  },
  {
   "property": "C17",
   "status": "partial",
   "theorems": [
    "C17_group_by_partial",
    "C17_one_row_per_key",
    "C17_first_seen_order",
    "C17_result_columns",
    "C17_plain_column",
    "C17_two_columns_of_one_name_refuted",
    "C17_overridden_star_column_refuted",
    "C17_aggregate_behind_and_refuted",
    "C17_aggregate_in_if_refuted"
   ],
   "note": "Proved for every table, WHERE, key expression and list of columns with distinct names, each an effect-free expression in which aggregates may stand under arithmetic, comparison, NOT, member access, in lists, in lists given to functions and left of AND/OR (`sum(item=n) / count() + 1`, `[count(), max(item=n)]`, `format(format=\"%v of %v\", args=[count(), n])`, `count() > 2 OR n`): the query yields exactly the specified group rows (first-seen order, last row's columns, aggregates over the group). Missing: aggregates that are themselves an argument of another function (these are evaluated lazily) and in subqueries. Findings, refuting the statement as written: two columns of one name, or an aggregate that overrides a star column, count every row twice; an aggregate right of AND/OR or in a branch of if() skips the rows for which that side is not evaluated."
  },
  {
   "property": "C18",
   "status": "partial",
   "theorems": [
    "C18_same_group_iff_printed_same_partial",
    "C18_string_keys",
    "C18_integer_keys",
    "C18_integer_and_string_refuted",
    "C18_several_columns_refuted",
    "C18_group_by_two_columns_refuted",
    "C18_group_by_mixed_refuted"
   ],
   "note": "Proved: same group iff the keys print the same, which for strings and (given %v prints decimals) integers is equality. Finding: 1 and \"1\" share a group, and GROUP BY a, b merges rows such as (\"x y\",\"z\") and (\"x\",\"y z\") (refutations)."
  },
  {
   "property": "C19",
   "status": "partial",
   "theorems": [
    "C19_aggregate_over_the_group",
    "C19_ratio_of_aggregates",
    "C19_aggregates_in_a_list_argument",
    "C19_count",
    "C19_sum",
    "C19_min",
    "C19_max",
    "C19_enumerate",
    "C19_running_aggregates_partial",
    "C19_aggregate_in_where_refuted",
    "C19_aggregate_behind_and_refuted",
    "C19_second_run_refuted",
    "C19_max_null_refuted",
    "C19_sum_null_refuted"
   ],
   "note": "Proved: count/sum/min/max/enumerate in a group row, alone or inside an expression, are the fold over exactly that group's items (with closed forms for int64), and running folds without GROUP BY. Findings: an aggregate that WHERE reads counts across groups, a second run of a stored query counts on, an aggregate behind AND sees only the rows whose left side holds, sum is NULL when the last item is no number, min/max with NULL depend on the order (refutations)."
  },
  {
   "property": "C20",
   "status": "proved",
   "theorems": [
    "C20_star_then_columns",
    "C20_columns_then_star"
   ],
   "note": "Columns are expressions without side effects, or subqueries of that kind."
  },
  {
   "property": "C21",
   "status": "partial",
   "theorems": [
    "C21_accessed_column_is_not_evaluated_again",
    "C21_accessed_column_is_reused",
    "C21_once_per_emitted_row_partial",
    "C21_two_columns_of_one_name_refuted"
   ],
   "note": "Proved for expressions of any kind and any history: a column that was accessed is not evaluated again, neither by an access nor when the row is emitted. For columns with distinct names and WHERE over effect-free columns: no effect for rejected rows, each column's effects once and in order for emitted rows. Refuted: with two columns of one name the first is never evaluated and the second twice."
  },
  {
   "property": "C22",
   "status": "partial",
   "theorems": [
    "C22_let_evaluates_nothing",
    "C22_every_reference_evaluates_the_body",
    "C22_the_body_sees_the_referrers_names",
    "C22_every_reference_runs_the_query",
    "C22_materialised_at_definition",
    "C22_query_materialised_at_definition",
    "C22_later_references_see_the_value_partial",
    "C22_later_references_see_the_rows",
    "C22_stored_expression_refuted"
   ],
   "note": "LET = evaluates nothing, each reference at any later time is exactly an evaluation of the body in the referrer's scope; LET <= evaluates once and later references give the value and change nothing. Refuted only when the value is itself a stored expression (LET X <= scope().Y)."
  },
  {
   "property": "C23",
   "status": "partial",
   "theorems": [
    "C23_call_of_an_expression_partial",
    "C23_call_of_a_query_partial",
    "C23_call_of_a_query_in_an_expression_partial",
    "C23_called_query_runs_at_the_call",
    "C23_parameters_are_the_names_passed",
    "C23_parameters_have_the_values_passed",
    "C23_parameters_shadow",
    "C23_other_names_are_the_callers",
    "C23_callers_variables_unchanged",
    "C23_registered_function_wins_refuted"
   ],
   "note": "Both directions, for all expressions: arguments in the caller's scope in order, then missing defaults, then the body with the parameters over the caller's frames; shadowing; caller's variables unchanged; a stored query called in an expression evaluates its arguments at the call and runs with them and the caller's frames when it is read. Refuted: a LET function named like a registered function is not called."
  },
  {
   "property": "C24",
   "status": "partial",
   "theorems": [
    "C24_passed_argument_is_used",
    "C24_default_of_a_passed_argument_is_not_evaluated",
    "C24_missing_argument_takes_its_default",
    "C24_only_parameters_get_defaults",
    "C24_defaults_have_distinct_names",
    "C24_quoted_parameter_refuted",
    "C24_no_arguments_refuted"
   ],
   "note": "Proved for parameters written without backquotes or whose default is not a query. Refuted: a quoted parameter with a query as default stays unbound, and a query called in an expression with no arguments at all is not called (NULL)."
  },
  {
   "property": "C25",
   "status": "partial",
   "theorems": [
    "C25_recursive_definitions_end_partial",
    "C25_symbol_at_the_limit_is_null",
    "C25_query_at_the_limit_is_empty",
    "C25_default_that_calls_the_function_refuted",
    "C25_definition_equal_to_itself_refuted",
    "C25_query_argument_named_like_its_source_refuted"
   ],
   "note": "The property as stated is false of the code: three programs never end (a default that calls the function it belongs to; a definition whose value is itself through scope(); a query argument of a definition named like its own source), because these paths do not pass the depth check or do not increase the depth. Proved: every program of a syntactic fragment ends with one outcome. The fragment: definitions that mention any names, mutual recursion through expressions, stored queries, host functions and the functions if, get (with an item), len, split, encode, timestamp, format, count and sum, the plugins if, foreach, chain, flatten, range (without step) and host plugins with queries as arguments at any nesting. Outside it: scope(), query arguments of definitions and functions, symbols in defaults, dict, min, max, enumerate, get without an item, range with a step, list elements other than literals and comparisons. At the limit a symbol is NULL and a query has no rows."
  },
  {
   "property": "C26",
   "status": "proved",
   "theorems": [
    "C26_scope_sees_its_history",
    "C26_no_leak",
    "C26_copy_inherits",
    "C26_append_visible"
   ],
   "note": "For every history of scope operations, every growth policy of Go's append and every destructor behaviour."
  },
  {
   "property": "C27",
   "status": "proved",
   "theorems": [
    "C27_resolution",
    "C27_stack_limit"
   ],
   "note": "Including the refusal at 1000 nested copies."
  },
  {
   "property": "C28",
   "status": "proved",
   "theorems": [
    "C28_close_runs_all_waiting",
    "C28_close_runs_exactly_once",
    "C28_closing_again_runs_nothing",
    "C28_each_accepted_destructor_once"
   ],
   "note": "Destructors that register no further destructor; a destructor that re-registers itself more than ten times is covered by C29."
  },
  {
   "property": "C29",
   "status": "partial",
   "theorems": [
    "C29_accounting_partial",
    "C29_quiet_partial",
    "C29_race_refuted",
    "C29_late_append_refuted",
    "C29_ten_rounds_refuted"
   ],
   "note": "False of the code: an AddDestructor racing with the end of Close, or a tenth rescheduling round, is accepted and never run (C29_race_refuted, C29_late_append_refuted, C29_ten_rounds_refuted). Proved: nothing runs twice, and everything accepted runs when no AddDestructor finishes during a Close."
  },
  {
   "property": "C30",
   "status": "proved",
   "theorems": [
    "C30_close_reaches_live_children",
    "C30_close_exactly_live_descendants"
   ],
   "note": ""
  },
  {
   "property": "C31",
   "status": "proved",
   "theorems": [
    "C31_registries_follow_history",
    "C31_families_are_permanent",
    "C31_new_scope_is_alone",
    "C31_isolated",
    "C31_clear_context"
   ],
   "note": ""
  },
  {
   "property": "C32",
   "status": "proved",
   "theorems": [
    "C32_binary_operators",
    "C32_bool_newest_first",
    "C32_builtin_first"
   ],
   "note": "Binary operators and Bool; implementations registered with AddImpl."
  },
  {
   "property": "C33",
   "status": "partial",
   "theorems": [
    "C33_range_partial",
    "C33_fuel_irrelevant",
    "C33_negative_step_refuted",
    "C33_never_ends_refuted",
    "C33_range_in_a_query"
   ],
   "note": "Exact progression for a positive (or absent) step that leaves room below 2^63, also with computed arguments in a query (C33_range_in_a_query). Refuted: a negative step emits nothing, and near the largest integer the loop wraps and never ends."
  },
  {
   "property": "C34",
   "status": "proved",
   "theorems": [
    "C34_chain",
    "C34_chain_yields_the_rows_of_its_queries"
   ],
   "note": "For every schedule: a prefix of the concatenation at any time, all of it at the end. Termination and single close are C39. C34_chain_yields_the_rows_of_its_queries is the same for chain() of queries written in VQL, from the arguments to the rows."
  },
  {
   "property": "C35",
   "status": "partial",
   "theorems": [
    "C35_flatten_any",
    "C35_flatten_partial",
    "C35_members_partial",
    "C35_plugin",
    "C35_null_member_refuted",
    "C35_value_column_refuted",
    "C35_object_rows",
    "C35_flatten_of_a_query"
   ],
   "note": "Proved exactly for cells whose members are neither NULL nor dictionaries with a _value member; C35_flatten_of_a_query takes the rows from a query written in VQL. Refuted: a NULL member is dropped, and a dictionary cell with a _value member is replaced by it."
  },
  {
   "property": "C36",
   "status": "proved",
   "theorems": [
    "C36_each_row_once",
    "C36_permutation",
    "C36_every_execution_ends",
    "C36_one_worker_in_order",
    "C36_negative_workers_refuted",
    "C36_without_query",
    "C36_worker_count",
    "C36_foreach_runs_the_query_for_each_row",
    "C36_foreach_over_a_list"
   ],
   "note": "All worker counts >= 1, all schedules: each row handed once, per-row outputs in order, permutation of the whole, input order with one worker, termination without deadlock. C36_foreach_runs_the_query_for_each_row and C36_foreach_over_a_list: the query of foreach() written in VQL sees the row and what surrounds it. Additional finding: a negative number of workers deadlocks (C36_negative_workers_refuted)."
  },
  {
   "property": "C37",
   "status": "partial",
   "theorems": [
    "C37_cancel_partial",
    "C37_refuted",
    "C37_without_query"
   ],
   "note": "Refuted: when the workers have seen the cancellation, the producer blocks for ever in RunScope. Proved: this is the only way not to return."
  },
  {
   "property": "C38",
   "status": "partial",
   "theorems": [
    "C38_if_function_partial",
    "C38_if_plugin_partial",
    "C38_if_function_without_else_partial",
    "C38_if_plugin_without_else_partial",
    "C38_plugin_expression_branches_refuted",
    "C38_list_branch_refuted",
    "C38_if_as_a_plugin"
   ],
   "note": "Proved for the function with expression branches and for the plugin with query branches, with and without else, for any effects; C38_if_as_a_plugin gives the rows in terms of the queries. Refuted: expression branches of the plugin, and a bracketed list as branch of the function, are evaluated although not selected."
  },
  {
   "property": "C39",
   "status": "partial",
   "theorems": [
    "C39_prefix_until_cancelled",
    "C39_complete",
    "C39_every_execution_ends",
    "C39_closed_once",
    "C39_closed_only_by_close",
    "C39_all_goroutines_return",
    "C39_cancel_releases_all",
    "C39_statement_cancels_alone",
    "C39_subsequence_partial",
    "C39_prefix_refuted"
   ],
   "note": "Proved for every query tree: prefix until cancelled, complete and closed at the end, no infinite execution, one close and nothing after it, all goroutines return (also under LIMIT), cancellation releases everything without ORDER BY. Refuted: after cancellation the reader may see a gap (a subsequence, proved, not a prefix)."
  },
  {
   "property": "C40",
   "status": "partial",
   "theorems": [
    "C40_only_feeders_left_partial",
    "C40_refuted",
    "C40_uncancelled_partial"
   ],
   "note": "Refuted: the goroutine feeding the sorter blocks for ever. Proved: only such feeders can be left, and none when not cancelled from outside."
  },
  {
   "property": "C41",
   "status": "partial",
   "theorems": [
    "C41_parts_are_the_rows_partial",
    "C41_nothing_reordered_or_invented",
    "C41_zero_maxrows_refuted",
    "C41_part_larger_than_maxrows_refuted",
    "C41_final_part_not_sent_refuted"
   ],
   "note": "Proved for every row sequence, every timer firing, every maxrows >= 1 and every encoder that does not fail; also for any encoder and a context that ends at any time the sent parts are in order a first part of the rows taken. False as stated for maxrows = 0 (empty parts and one row per part), and when the host's encoder fails (rows stay, the next part exceeds maxrows; a failure at the end loses the last rows and sends nothing)."
  },
  {
   "property": "C42",
   "status": "proved",
   "theorems": [
    "C42_literal_round_trip",
    "C42_plain_text",
    "C42_multiline_verbatim",
    "C42_total_and_bounded"
   ],
   "note": "Literals with escaped quotes/backslashes, plain and triple-quoted literals, over every token the lexer's String and MultilineString rules accept."
  },
  {
   "property": "C43",
   "status": "partial",
   "theorems": [
    "C43_decoding",
    "C43_unquote_escapes",
    "C43_join_split",
    "C43_unquote_ident_partial",
    "C43_unquote_bare",
    "C43_backslash_refuted"
   ],
   "note": "Joining/splitting and unquoting proved for components of Unicode scalar values; an identifier with a backslash is not recovered by Unquote_ident and loses its prefix (C43_backslash_refuted)."
  },
  {
   "property": "C44",
   "status": "partial",
   "theorems": [
    "C44_scanner_covers_text",
    "C44_scanner_rejects",
    "C44_token_positions_partial",
    "C44_multibyte_refuted",
    "C44_offset_counts_characters"
   ],
   "note": "The end offset counts characters instead of bytes, so it is wrong after multi-byte text (C44_multibyte_refuted); proved exact on ASCII text. For every text the scanner accepts, the text is its tokens in order with blanks between and nothing else, and it rejects only a text with a part that no rule fits."
  },
  {
   "property": "C45",
   "status": "proved",
   "theorems": [
    "C45_report_error",
    "C45_never_panics"
   ],
   "note": "The last byte of the expression is never quoted; stated exactly in the theorem."
  },
  {
   "property": "C46",
   "status": "partial",
   "theorems": [
    "C46_statements_partial",
    "C46_comments_once_partial",
    "C46_trailing_comment_refuted"
   ],
   "note": "Comments after the last statement are dropped (C46_trailing_comment_refuted); every other comment is attached exactly once, to the following statement."
  },
  {
   "property": "C47",
   "status": "partial",
   "theorems": [
    "C47_tags",
    "C47_success_partial",
    "C47_errors",
    "C47_complete",
    "C47_double_star",
    "C47_stored_type",
    "C47_stored_value",
    "C47_duplicate_fields_refuted",
    "C47_float32_field_refuted",
    "C47_free_form"
   ],
   "note": "Proved for structures whose declared names are distinct, for every argument list, field type and coercion behaviour; what is stored has the type of the field and is the argument's value (C47_stored_type, C47_stored_value). Refuted: two fields with the same name hide an undeclared argument, and a float32 field panics."
  },
  {
   "property": "C48",
   "status": "partial",
   "theorems": [
    "C48_one_string_per_element_partial",
    "C48_single_value_is_one_string",
    "C48_elements_kept",
    "C48_single_member_refuted"
   ],
   "note": "Refuted: a dictionary with a single string member adds two strings. Proved when no element is an object with exactly one member."
  },
  {
   "property": "C49",
   "status": "partial",
   "theorems": [
    "C49_statement_round_trip_partial",
    "C49_expression_round_trip_partial",
    "C49_number_value",
    "C49_empty_index_refuted",
    "C49_bad_number_refuted",
    "C49_star_alias_refuted",
    "C49_empty_parameters_refuted",
    "C49_quoted_parameter_refuted",
    "C49_repeated_parameter_refuted"
   ],
   "note": "proved for every text the parser accepts whose tree passes clean_vql (a decidable check that names the exclusions): Parse of FormatToString of the tree is the same tree, numbers respelled with the same value. Refuted outside: x[] prints as x., out-of-range numbers print as FALSE, the alias of a star, empty parameter lists, quoted and repeated LET parameters are lost. Every number literal that has a value is proved to keep it, floats included (the shortest decimal printed reads back as the same float)."
  },
  {
   "property": "C50",
   "status": "partial",
   "theorems": [
    "C50_definition_partial",
    "C50_scope_partial",
    "C50_nothing_else_changes",
    "C50_equal_value",
    "C50_defaults_refuted",
    "C50_quoted_parameter_refuted",
    "C50_backslash_name_refuted",
    "C50_unclean_body_refuted",
    "C50_null_variable_refuted",
    "C50_one_bad_variable_refuted",
    "C50_alias_refuted",
    "C50_bytes_refuted",
    "C50_integers_refuted"
   ],
   "note": "Every scope whose saved variables are booleans, int, finite float, text, arrays, rows, dictionaries or definitions without defaults, with parameters that need no quotes and a body the formatter is right about, is saved, and restored over any scope in any order of the variables: values as written (integers as the nearest float64), definitions with the same name, parameters and body; all other names are untouched. Scalars and arrays are equal in VQL to what is restored. False in general: defaults of parameters are dropped, quoted parameters lose the definition, NULL variables are lost, one NaN fails everything, aliases move, backslashes in names, invalid UTF-8 and integers beyond 2^53 change."
  },
  {
   "property": "C51",
   "status": "partial",
   "theorems": [
    "C51_answers_do_not_depend_on_the_history",
    "C51_answers_do_not_depend_on_the_schedule",
    "C51_stored_value_changes_the_answer_refuted",
    "C51_two_goroutines_compile_twice_refuted"
   ],
   "note": "Proved for every history of calls and for every interleaving of goroutines: the answers are those of a fresh compile of the pattern, and a goroutine compiles a pattern at most once. False as stated in two cases, both proved: a host that stores its own value under the cache's key (__re + pattern) changes the answers, and two goroutines that miss together compile the same pattern twice."
  },
  {
   "property": "C52",
   "status": "proved",
   "theorems": [
    "C52_iterate"
   ],
   "note": "For every value and every set of registered iterators, the newest applicable one first."
  },
  {
   "property": "C53",
   "status": "partial",
   "theorems": [
    "C53_wrong_arity",
    "C53_right_arity",
    "C53_distinct_parameters",
    "C53_quoted_parameter_refuted"
   ],
   "note": "All lambdas and argument lists; parameters of one name: the last argument. Refuted: a parameter in backquotes is never found by the body."
  },
  {
   "property": "C54",
   "status": "partial",
   "theorems": [
    "C54_evaluated_at_most_once_partial",
    "C54_first_access",
    "C54_reduce_with_scope_refuted"
   ],
   "note": "Reduce: after a value was obtained, every later Reduce returns it and changes nothing, whatever happens in between; the first evaluates the expression once in the caller's scope. Refuted: ReduceWithScope evaluates it every time."
  },
  {
   "property": "C55",
   "status": "proved",
   "theorems": [
    "C55_materialised_rows",
    "C55_running",
    "C55_iterating",
    "C55_from",
    "C55_again",
    "C55_indexing",
    "C55_column"
   ],
   "note": "For every query and value; indexing provided the host registers no Associative of its own for it."
  },
  {
   "property": "C56",
   "status": "partial",
   "theorems": [
    "C56_unthrottled_never_waits",
    "C56_close_any_number_of_times",
    "C56_repeated_close",
    "C56_one_operation_for_each_tick",
    "C56_concurrent_close_panics_refuted",
    "C56_rates_that_panic_refuted"
   ],
   "note": "Proved: with rate 0, above 100 or 100 no ChargeOp ever waits, under any schedule; calls of Close that do not overlap may be repeated and never panic, and release every waiting ChargeOp; before Close there is at most one operation for each tick. False in general, both proved: two goroutines that close at once close a closed channel; negative, NaN and very small rates panic in NewTicker."
  },
  {
   "property": "C57",
   "status": "proved",
   "theorems": [
    "C57_one_entry_per_column",
    "C57_functions_in_source_order"
   ],
   "note": "For every text that parses: the function entries are a subsequence of the calls of the text as written, so each stands for a call of its own, in order; and a query has one entry per column, named by the alias."
  },
  {
   "property": "C58",
   "status": "partial",
   "theorems": [
    "C58_escapes",
    "C58_malformed_partial",
    "C58_malformed_refuted"
   ],
   "note": "Proved for well-formed escapes; a malformed \\x escape is not copied unchanged (C58_malformed_refuted), what happens instead is C58_malformed_partial."
  },
  {
   "property": "C59",
   "status": "proved",
   "theorems": [
    "C59_parse_any_bound",
    "C59_multi_parse_any_bound",
    "C59_parse_rejects_for_a_reason"
   ],
   "note": "In the model the recursion of participle is bounded by a number; the theorems show that a larger bound never changes the answer."
  },
  {
   "property": "C60",
   "status": "partial",
   "theorems": [
    "C60_format_settles_partial",
    "C60_expression_settles_partial",
    "C60_format_unsettled_refuted"
   ],
   "note": "Proved for statements that pass clean_vql, the same decidable check as C49. Refuted without it: x[] changes again when formatted twice."
  },
  {
   "property": "C61",
   "status": "partial",
   "theorems": [
    "C61_every_reference_once_partial",
    "C61_repeated_parameter_refuted",
    "C61_calls_of_the_text_partial",
    "C61_definitions",
    "C61_definition_defaults",
    "C61_nothing_invented",
    "C61_chained_comparison_refuted"
   ],
   "note": "Proved for every list of statements whose LET parameters have distinct names: exactly the references of the tree, in order, once. On the text as written: nothing is listed that was not written (C61_nothing_invented), and for clean statements the calls of the formatted text are exactly the call sites. Refuted: a repeated LET parameter loses one reference and doubles another; of a chain of comparisons a < b < c the grammar drops b."
  },
  {
   "property": "C62",
   "status": "partial",
   "theorems": [
    "C62_text_without_comments_partial",
    "C62_text_keeps_statements_partial",
    "C62_reformat_keeps_statements_partial",
    "C62_reformat_settles_partial",
    "C62_options_only_lay_out_partial",
    "C62_no_line_ends_in_space",
    "C62_literal_trimmed_refuted",
    "C62_layout_fits"
   ],
   "note": "Proved from text to text (C62_text_keeps_statements_partial) for every comment-free script of clean statements (the exclusions of C49) whose literals have no line that ends in a space, for all options: ReFormatVQL accepts it, the result parses to the same statements and is returned unchanged when reformatted. Refuted for literals: trailing spaces inside a literal are trimmed away, so its value changes. Scripts with comments are C72."
  },
  {
   "property": "C63",
   "status": "partial",
   "theorems": [
    "C63_decimal",
    "C63_hexadecimal",
    "C63_octal",
    "C63_point",
    "C63_exponent",
    "C63_large_integer_partial",
    "C63_leading_zero_float_partial",
    "C63_integer_rounded_refuted",
    "C63_leading_zero_refuted",
    "C63_hexadecimal_lost_refuted"
   ],
   "note": "Proved: decimal integers without a leading 0 and hexadecimal integers within 64 bits are exactly the integer, for any number of digits; literals with a point or an exponent are the nearest float64, ties to even, and have no value only beyond the largest float. False as stated, all proved: a decimal integer beyond 64 bits silently becomes the nearest float (C63_integer_rounded_refuted); a leading 0 makes the digits octal, unless one of them is 8 or 9, when the literal is a float (C63_leading_zero_refuted); a hexadecimal literal beyond 64 bits has no value, which is only logged."
  },
  {
   "property": "C64",
   "status": "partial",
   "theorems": [
    "C64_formatted_statement_partial",
    "C64_reformatted_script_partial",
    "C64_restored_definition_partial",
    "C64_formatting_changes_value_refuted",
    "C64_reformatting_changes_string_refuted",
    "C64_column_names",
    "C64_word_literals",
    "C64_symbol_names",
    "C64_let_operators"
   ],
   "note": "Proved for every environment, fuel, scope and state: a statement that passes clean_vql (C49), a script that passes clean_script (C62) under any options, a definition that passes plain_def (C50). False in general, both proved with rows computed by the model: a hexadecimal literal that does not fit is NULL and prints as FALSE; a string literal with a line that ends in spaces loses them when reformatted. EXPLAIN is the subject of C79."
  },
  {
   "property": "C65",
   "status": "partial",
   "theorems": [
    "C65_get_follows_the_path_partial",
    "C65_get_of_a_variable_partial",
    "C65_number_like_member_refuted",
    "C65_dotted_member_refuted",
    "C65_column_of_a_query_refuted"
   ],
   "note": "Proved for every value that is data and not a query, and every path without a component that looks like a number; without an item, for every variable of the pure fragment. False otherwise, all proved: a member named like a number is not found, get() looks for an index instead; a member with a dot in its name cannot be reached; the column of a query leaves out the rows without that column."
  },
  {
   "property": "C66",
   "status": "proved",
   "theorems": [
    "C66_split_cuts_at_the_separator",
    "C66_no_separator_is_null"
   ],
   "note": "For calls whose arguments are expressions of the pure fragment (den, PureSpec.v); splitting with a regular expression (sep) is Go's regexp.Split, a parameter."
  },
  {
   "property": "C67",
   "status": "partial",
   "theorems": [
    "C67_epoch_is_the_instant_partial",
    "C67_winfiletime_is_the_instant_partial",
    "C67_timestamps_compare_as_epochs_partial",
    "C67_epoch_zero_refuted",
    "C67_file_times_lose_the_fraction_refuted"
   ],
   "note": "Proved for epoch > 0, and for file times > 0 (rounded down to a second). False otherwise, both proved: timestamp(epoch=0) and every negative epoch are NULL although winfiletime can denote the same instants; file times lose the fraction of a second, so that two of them in order may be equal as timestamps."
  },
  {
   "property": "C68",
   "status": "proved",
   "theorems": [
    "C68_hex_writes_every_byte",
    "C68_hex_is_injective"
   ],
   "note": "For calls whose arguments are expressions of the pure fragment."
  },
  {
   "property": "C69",
   "status": "partial",
   "theorems": [
    "C69_dict_gives_back_partial",
    "C69_deep_list_refuted"
   ],
   "note": "Proved for values without nil and queries, with lists nested at most nine deep. False for deeper lists, proved: what is inside of ten lists becomes NULL. A query is stored as the list of its rows."
  },
  {
   "property": "C70",
   "status": "partial",
   "theorems": [
    "C70_field_is_read_by_its_name_partial",
    "C70_field_is_read_by_its_json_name_partial",
    "C70_getter_is_called_partial",
    "C70_other_names_are_missing_partial",
    "C70_hidden_methods",
    "C70_members_can_be_read_partial",
    "C70_two_fields_one_name_refuted",
    "C70_method_hidden_refuted",
    "C70_method_hidden_by_embedded_field_refuted",
    "C70_empty_name_refuted",
    "C70_caseless_name_refuted",
    "C70_promoted_fields_are_not_listed",
    "C70_found",
    "C70_promoted_field_partial"
   ],
   "note": "Proved when no JSON tag of another field repeats the name and no field, at any depth of embedding, has the name of a method. Refuted: with such a tag a listed field is not found; a method is hidden by a field with that tag, or by a field of an embedded struct; the empty name finds the only field without a tag; a name that starts with a letter without upper case is listed but cannot be read. Fields of embedded structs can be read but are not listed."
  },
  {
   "property": "C71",
   "status": "partial",
   "theorems": [
    "C71_only_listed_attributes",
    "C71_same_attribute_as_without_wrapper",
    "C71_called_once_partial",
    "C71_everybody_returns",
    "C71_nil_result_called_again_refuted"
   ],
   "note": "Proved for every schedule of any number of readers: at most one call, the same value for all, nobody waits for ever; what is found is what the object shows without the wrapper. Refuted: a getter whose result is a nil interface is called again by every reader."
  },
  {
   "property": "C72",
   "status": "partial",
   "theorems": [
    "C72_comments_above_statements_partial",
    "C72_comments_settle_partial",
    "C72_comment_spaces_settle_refuted",
    "C72_comment_swallows_code_refuted",
    "C72_comment_changes_call_refuted",
    "C72_comment_lost_refuted",
    "C72_last_comment_lost_refuted",
    "C72_valid_script_refused_refuted",
    "C72_comment_without_breaks_refuted"
   ],
   "note": "Proved for all scripts, comments and thresholds, with line breaks on: when the comments stand above statements (any number, of all three kinds) ReFormatVQL returns a text with the same statements, the same comments in the same order up to spaces at the ends of their lines, each above the same statement; and the text is a fixed point when no comment line ends in a space. Excluded there: a comment after a WHERE or GROUP BY list that has a comma. False as stated elsewhere, all proved: a comment inside an expression swallows the code after it, so that another script is returned; a comment between the name and the arguments of a call inside a list makes the call disappear; comments are lost (the second after WHERE, those below the last statement); valid scripts are refused (two comments above an expression, one before WHERE or AS, two after GROUP BY a, b); without line breaks a comment above a statement hides the statement; spaces at the end of a comment change the layout, so that reformatting does not settle."
  },
  {
   "property": "C73",
   "status": "partial",
   "theorems": [
    "C73_add_partial",
    "C73_subtract",
    "C73_multiply",
    "C73_divide_partial",
    "C73_exact",
    "C73_not_finite",
    "C73_integer_rounded_first_refuted",
    "C73_large_unsigned_refuted",
    "C73_left_operand_refuted",
    "C73_float32_dropped_refuted",
    "C73_integer_types",
    "C73_positive_zero"
   ],
   "note": "Proved for subtraction and multiplication of all finite numbers with at least one float, for division (where the zero test looks at the right operand, see C06), for addition when the left operand is a float or an integer that fits int64, and for infinities and NaN. Refuted: a uint or a boolean plus a float is NULL, although a float plus one is not; a uint64 above 2^63 on the left of + counts as negative; an integer plus a float32 leaves the float32 out; an integer is rounded before it is added, so the sum of 2^53 + 1 and 1.0 is not 2^53 + 2."
  },
  {
   "property": "C74",
   "status": "partial",
   "theorems": [
    "C74_argument_rows_partial",
    "C74_query_argument",
    "C74_same_as_iterating_partial",
    "C74_nil_panics_refuted",
    "C74_differs_from_iterating_refuted"
   ],
   "note": "Proved for every value other than a Go nil, with lists that hold no lists or queries. Refuted: a Go nil makes the process panic (reflection on a nil interface); an empty dictionary becomes a row with the column _value, and a list of dictionaries inside a list becomes a row itself, where iterating gives the empty dictionary and a _value row."
  },
  {
   "property": "C75",
   "status": "partial",
   "theorems": [
    "C75_ends",
    "C75_earlier_kept",
    "C75_described",
    "C75_targets_described_partial",
    "C75_new_descriptions",
    "C75_names",
    "C75_own_attributes",
    "C75_argument_names_partial",
    "C75_struct_value_refuted",
    "C75_nested_filtered_refuted",
    "C75_order_refuted",
    "C75_embedded_refuted",
    "C75_array_name_refuted",
    "C75_argument_name_refuted",
    "C75_untagged_refuted"
   ],
   "note": "Proved for all types: describing ends; earlier descriptions stay; a new type is described by exactly the exported fields (with those of embedded structs) and methods that pass the filter by members; what a pointer, slice, array or map leads to is described; a pointer to a struct shows all its own fields and methods; its arguments carry the names callers use when the tags are plain. Refuted: a field that holds a struct by value names a type that is not described; the types referred to are filtered by the members of the outer type; fields of embedded structs are left out; a struct first met behind a slice of pointers is described without fields for good; an array behind a pointer is called 5]int; a tag such as field=foo-bar is cut to foo; untagged fields are listed as arguments."
  },
  {
   "property": "C76",
   "status": "partial",
   "theorems": [
    "C76_join",
    "C76_associative",
    "C76_empty",
    "C76_queries",
    "C76_query_and_value_refuted",
    "C76_null_left_refuted"
   ],
   "note": "Proved for all lists and values when the left operand is not NULL, and for two queries, also as operands of an expression. Refuted: a query and a value that is no list give NULL; NULL on the left wipes out the list while NULL on the right is appended."
  },
  {
   "property": "C77",
   "status": "proved",
   "theorems": [
    "C77_suggestions",
    "C77_same_every_time",
    "C77_empty_word",
    "C77_message",
    "C77_version"
   ],
   "note": "For every order of the walks, given the contract of Go's sort (sort_contract, satisfied by insertion_sort). C77_empty_word: a name that starts or ends with an underscore suggests every plugin."
  },
  {
   "property": "C78",
   "status": "partial",
   "theorems": [
    "C78_counts",
    "C78_snapshot",
    "C78_quiet_snapshot",
    "C78_later_snapshot",
    "C78_not_one_moment_refuted"
   ],
   "note": "Proved: the counts under any schedule; each number of a snapshot is what its counter was at some moment while the snapshot was taken; exact when nothing is added meanwhile; monotone below 2^64. Refuted: the numbers need not belong to one moment, because the five counters are loaded one after the other."
  },
  {
   "property": "C79",
   "status": "partial",
   "theorems": [
    "C79_explaining_changes_nothing_partial",
    "C79_session_partial",
    "C79_without_the_keyword",
    "C79_ends_with_the_statement",
    "C79_each_row_is_reported",
    "C79_explaining_runs_a_query_refuted",
    "C79_grouped_rows_not_reported_refuted",
    "C79_reason_is_kept",
    "C79_reason_is_spoilt_refuted"
   ],
   "note": "Proved for every session, whichever of its queries (nested ones too) are explained: same outcome, same state, same effects in the same order, messages in between, unless the explainer reads a row that is a list, a query or a row of lazy columns; a session without the keyword is not explained and a keyword ends with its statement; for effect-free queries over rows that are data the messages are exactly one start and one pair for each row. Refuted: reading a list that holds a query runs that query, an effect that only EXPLAIN has; GROUP BY reports no row at all; a percent sign in WHERE spoils the message about a rejected row, because its text is used as a format. Not modelled: the messages about parsed arguments, EXPLAIN written inside of a query or of LET x =."
  },
  {
   "property": "C80",
   "status": "partial",
   "theorems": [
    "C80_each_function_is_exact",
    "C80_later_calls_share_a_function",
    "C80_counted_once_partial",
    "C80_count_partial",
    "C80_sum_partial",
    "C80_enumerate_partial",
    "C80_one_goroutine",
    "C80_first_calls_lost_refuted",
    "C80_count_starts_again_refuted"
   ],
   "note": "Proved for a node that was called before: under every schedule the calls are those of some serial order (C80_counted_once_partial; count, sum and enumerate spelled out), for one goroutine from the first call on (C80_one_goroutine), and for the calls of every single function copy without any assumption (C80_each_function_is_exact). The full statement is false of the code: callFunction reads the cached function and stores a new one under two separate locks, so that first calls that overlap count in different places; both return 1 (C80_first_calls_lost_refuted), and a worker that is delayed there makes the count start again after any number of rows (C80_count_starts_again_refuted)."
  },
  {
   "property": "C81",
   "status": "partial",
   "theorems": [
    "C81_materialised_partial",
    "C81_fields_of_a_dictionary",
    "C81_columns_of_a_row",
    "C81_data_is_kept",
    "C81_nested_query_refuted"
   ],
   "note": "Proved: the columns and their order, that each column of a row is evaluated and kept by the row, that data stays as it is without any effect, and that no value of the dictionary or of the lists in it is unevaluated or a query. False inside of nested dictionaries, which RowToDict returns unchanged: a query in the rows of a query is still a query (C81_nested_query_refuted). Values inside of ten lists become NULL (C69). Not modelled: values of the host that are functions, Memberer or Go maps."
  },
  {
   "property": "C82",
   "status": "partial",
   "theorems": [
    "C82_kept_partial",
    "C82_result_of_an_evaluation",
    "C82_steady_expression_partial",
    "C82_one_goroutine",
    "C82_evaluated_twice_refuted",
    "C82_evaluated_by_all_refuted",
    "C82_nil_again_refuted"
   ],
   "note": "Proved: once a value is kept and nobody is on the way, it is what everybody gets and nothing is evaluated any more (C82_kept_partial); every value handed out is the result of some evaluation (C82_result_of_an_evaluation), hence for an expression that always yields the same everybody gets it (C82_steady_expression_partial); one goroutine evaluates once (C82_one_goroutine). The full statement is false of the code, which looks into the cache and stores into it under no common lock: two readers evaluate twice and get different values, and the value of the row changes afterwards (C82_evaluated_twice_refuted); n readers may evaluate n times (C82_evaluated_by_all_refuted); an argument that yields nil is evaluated at every read (C82_nil_again_refuted)."
  },
  {
   "property": "C83",
   "status": "partial",
   "theorems": [
    "C83_extra_arguments_are_reported",
    "C83_missing_arguments_partial",
    "C83_reported_partial",
    "C83_extra_hides_missing_refuted",
    "C83_no_parameters_refuted",
    "C83_functions_are_not_checked_refuted",
    "C83_quoted_default_refuted"
   ],
   "note": "Proved for FROM Q(...) of a query with parameters: extra arguments are reported exactly; missing ones are reported, all of them, exactly when there are more of them than extra ones; so all messages are exact when every argument is a parameter, defaults included (C83_reported_partial). The full statement is false of the code: as many extra arguments as missing ones hide what is missing (C83_extra_hides_missing_refuted); a definition without parameters and calls inside of expressions or of expressions are not checked at all; the query default of a parameter in backquotes is reported as an extra argument of a call without arguments (C83_quoted_default_refuted)."
  },
  {
   "property": "C84",
   "status": "partial",
   "theorems": [
    "C84_no_deadlock_partial",
    "C84_all_calls_return_partial",
    "C84_own_calls_are_polite",
    "C84_callback_refuted",
    "C84_crossing_attributes_refuted"
   ],
   "note": "Proved for every number of goroutines, calls and every schedule: no schedule goes on for ever, every one can be continued until all calls have returned, and when nobody can go on all have returned, provided that code of the host that is called back under a lock takes none of the locks named in may_take's complement; calls without callbacks always qualify (C84_own_calls_are_polite). The full statement is false of the code, whose mutexes are held while code of the host runs: an Info method that logs, members read by PrintVars that use the scope, a comparison that evaluates an aggregate of the same query and a lazy attribute that reads itself block for ever (C84_callback_refuted); two lazy attributes that read each other block two goroutines (C84_crossing_attributes_refuted). Only the mutexes are modelled, not channels (see C36-C41) nor the locks inside of libraries."
  },
  {
   "property": "C85",
   "status": "proved",
   "theorems": [
    "C85_tokens_are_those_of_the_table",
    "C85_rejected_by_the_table",
    "C85_one_way"
   ],
   "note": "The table of vfilter.go:149-178 is copied as text into LexRules.v, which gives the syntax of its patterns and the order in which Go's regexp prefers matches; the scanner that the other theorems use is proved to cut every text as the table does. (?i) folds ASCII letters only."
  },
  {
   "property": "C86",
   "status": "proved",
   "theorems": [
    "C86_parse",
    "C86_multi_parse",
    "C86_multi_parse_with_comments",
    "C86_one_reading",
    "C86_every_script_is_read",
    "C86_grammar_is_complete"
   ],
   "note": "The tags are copied verbatim; what they mean is participle's documentation and source, which is not in the repository."
  },
  {
   "property": "C87",
   "status": "partial",
   "theorems": [
    "C87_shape",
    "C87_some_parameter",
    "C87_same_expression",
    "C87_lambda_grammar",
    "C87_spelling_of_in_refuted"
   ],
   "note": "Shape, order of the parameters, acceptance by the tags and the same body as in a query are proved for texts without comments. False for the operator IN in mixed case (C87_spelling_of_in_refuted): the parser of lambdas does not write IN in capitals, so iN is always false in a lambda. Comments in lambdas are not modelled."
  },
  {
   "property": "C88",
   "status": "partial",
   "theorems": [
    "C88_settings_partial",
    "C88_throttler",
    "C88_explained_partial",
    "C88_not_explained",
    "C88_aggregator",
    "C88_aggregator_exists",
    "C88_new_scopes_count_apart",
    "C88_clear_context_loses_the_explainer",
    "C88_explainer_refuted"
   ],
   "note": "Proved for every history: sorter, grouper, materializer and loggers, the throttler, the aggregator contexts; the explainer as long as nobody calls ClearContext. The statement is false of the code for the explainer: ClearContext builds a dispatcher without it, so EXPLAIN is silent afterwards (C88_clear_context_loses_the_explainer, C88_explainer_refuted)."
  },
  {
   "property": "C89",
   "status": "proved",
   "theorems": [
    "C89_parse",
    "C89_multi_parse",
    "C89_one_tree",
    "C89_accepted_is_filled"
   ],
   "note": "The captures (keeps, fills) and the tree of a struct (make, tree_of) are a specification of their own in GrammarTree.v: the tags copied from the source, read as participle reads them. Comments are left out before these parsers see the tokens; C72 and C86 treat the parser that keeps them."
  },
  {
   "property": "C90",
   "status": "partial",
   "theorems": [
    "C90_race_iff",
    "C90_running_partial",
    "C90_setting_up_partial",
    "C90_settings_race",
    "C90_clear_context_races",
    "C90_shared_maps_race",
    "C90_unlocked_fields_race",
    "C90_shared_freely_refuted"
   ],
   "note": "Goroutines reach a data race under some schedule exactly when two of them make calls that access a place, one writing, with no lock in common (C90_race_iff). Hence no schedule races as long as the calls only use the settings of scopes (C90_running_partial), nor when registrations meet only calls that take the dispatcher's lock (C90_setting_up_partial). The statement as a whole is false of the code: GetFunction, GetPlugin, NewScope and the operators look up without the lock that registrations take, SetLogger and SetTracer write without it, ClearContext replaces the dispatcher under the reader, and dispatchers share maps under different locks afterwards (C90_settings_race, C90_clear_context_races, C90_shared_maps_race, C90_unlocked_fields_race, C90_shared_freely_refuted). Memory behind the values themselves (rows, plugins, query nodes) is not modelled."
  },
  {
   "property": "C91",
   "status": "partial",
   "theorems": [
    "C91_truth",
    "C91_list",
    "C91_index",
    "C91_column",
    "C91_sum",
    "C91_no_endless_use",
    "C91_answered_in_the_end",
    "C91_list_leaves_nothing",
    "C91_column_leaves_nothing",
    "C91_sum_leaves_nothing",
    "C91_index_leaves_nothing_partial",
    "C91_truth_leaves_goroutines",
    "C91_truth_cancelled_partial",
    "C91_truth_abandons_refuted",
    "C91_index_abandons_refuted",
    "C91_cancelled_answer_refuted"
   ],
   "note": "Proved for every schedule: the answers (C91_truth, C91_index, C91_column, C91_sum, C91_list), that every use ends with one (C91_no_endless_use, C91_answered_in_the_end), and that lists, columns and sums leave no goroutine, indexing none unless an ORDER BY stands below a chain(). The last part is false of the code for truth values: a query with a second row is always left behind, blocked until the caller is cancelled (C91_truth_leaves_goroutines is exact, C91_truth_abandons_refuted), and for indexing into a chain() of an ORDER BY (C91_index_abandons_refuted). A cancelled caller may see the value of only a part of the rows (C91_cancelled_answer_refuted); indexing, columns and sums do not notice the cancellation and read on."
  },
  {
   "property": "C92",
   "status": "partial",
   "theorems": [
    "C92_no_panic_partial",
    "C92_lambda_partial",
    "C92_history_partial",
    "C92_text_partial",
    "C92_refuted",
    "C92_multiplication_refuted",
    "C92_named_star_refuted",
    "C92_host_nil_refuted"
   ],
   "note": "Proved for every script without three constructs: enumerate() without items (or with its arguments in a `**` dict), a star column with a name (`* AS x`), and a multiplication whose first factor is not a number by its syntax (a literal, a comparison or NOT); for any host that does not panic itself and hands no Go nil to the library; for statements (C92_no_panic_partial), lambdas (C92_lambda_partial), texts (C92_text_partial) and whole sessions (C92_history_partial), with the invariant that no nil appears anywhere in rows, scopes, lazy rows, caches and aggregates. Each exclusion is needed for the first two and for multiplication of strings: C92_refuted, C92_named_star_refuted, C92_multiplication_refuted are scripts of built-ins alone that end the process; C92_host_nil_refuted shows the condition on the host is needed. Missing: multiplications with a variable in front that happens not to be a string; panics of Go's runtime outside of the model (stack and memory exhaustion)."
  },
  {
   "property": "C93",
   "status": "partial",
   "theorems": [
    "C93_unused_variables_partial",
    "C93_foreach_of_foreach_partial",
    "C93_foreach_over_chain_partial",
    "C93_select_over_if_partial",
    "C93_foreach_where_partial",
    "C93_select_over_foreach_partial",
    "C93_or_commutes_partial",
    "C93_and_over_or_partial",
    "C93_not_or_partial",
    "C93_and_brackets_partial",
    "C93_foreach_capture_refuted",
    "C93_star_of_a_query_partial",
    "C93_where_in_two_steps_partial",
    "C93_equivalent_conditions_partial",
    "C93_and_commutes_partial",
    "C93_de_morgan_partial",
    "C93_double_negation_partial",
    "C93_condition_after_columns_partial",
    "C93_limit_of_limit_partial",
    "C93_select_over_chain_partial",
    "C93_hidden_column_refuted"
   ],
   "note": "Proved for the queries of C14's fragment (C93_where_in_two_steps_partial, C93_equivalent_conditions_partial, C93_and_commutes_partial, C93_or_commutes_partial, C93_and_over_or_partial, C93_and_brackets_partial, C93_de_morgan_partial, C93_not_or_partial, C93_double_negation_partial, C93_condition_after_columns_partial, C93_select_over_chain_partial, C93_limit_of_limit_partial, C93_star_of_a_query_partial; with foreach() and if(): C93_foreach_of_foreach_partial, C93_foreach_over_chain_partial, C93_foreach_where_partial, C93_select_over_foreach_partial, C93_select_over_if_partial; C93_unused_variables_partial: a query depends on the variables it mentions only), each group with cases that meet the hypotheses. C93_hidden_column_refuted: a condition on a column that is not selected holds inside of the query but not outside. C93_foreach_capture_refuted: nested foreach() may be regrouped only if the last query does not look at columns of the outermost rows. Missing: GROUP BY, stored queries and functions with effects; rows with Go nils in the laws that ask for no_nils."
  },
  {
   "property": "C94",
   "status": "proved",
   "theorems": [
    "C94_order_of_rows",
    "C94_counts_add_up",
    "C94_sums_add_up",
    "C94_other_column_refuted",
    "C94_mixed_items_refuted"
   ],
   "note": "C94_order_of_rows, C94_counts_add_up, C94_sums_add_up, each with a case of two tables in different orders. The limits of the statement are sharp: C94_other_column_refuted (a column that is not determined by the key depends on the order) and C94_mixed_items_refuted (sum and max depend on the order when one item is no number)."
  },
  {
   "property": "C95",
   "status": "proved",
   "theorems": [
    "C95_look_ahead",
    "C95_rows_taken",
    "C95_all_before_first",
    "C95_stops_when_cancelled_refuted"
   ],
   "note": "C95_look_ahead, C95_rows_taken, C95_all_before_first, with executions that meet the hypotheses (one in which all goroutines hold a row). flatten() and chain() are left out of the first two: flatten() holds all the rows of one row. The restriction to a live context is needed: C95_stops_when_cancelled_refuted."
  },
  {
   "property": "C96",
   "status": "proved",
   "theorems": [
    "C96_every_schedule",
    "C96_every_schedule_group_by",
    "C96_cancelled",
    "C96_foreach_workers"
   ],
   "note": "C96_every_schedule and C96_every_schedule_group_by, with C96_demo (chain, flatten, ORDER BY, LIMIT) and C96_group_demo. They connect the one-threaded evaluator of Eval.v (C14, C17) with the goroutines of Pipeline.v (C39). C96_cancelled: a query without GROUP BY, ORDER BY and LIMIT that is cancelled at any time delivers a subsequence of these rows (not always a prefix: C39_prefix_refuted). In the trees foreach() is one goroutine that sends its rows; C96_foreach_workers says that its own goroutines (Foreach.v, C36) deliver these rows, in order with one worker and in some order with more."
  },
  {
   "property": "C97",
   "status": "proved",
   "theorems": [
    "C97_text_to_results",
    "C97_results_so_far"
   ],
   "note": "C97_text_to_results and C97_results_so_far, composed from C14, C39, C41 and C96, with C97_demo (a text with chain(), range(), WHERE, ORDER BY and LIMIT). The rows of the fragment are dictionaries of data, for which the conversion RowToDict is the identity (C81)."
  },
  {
   "property": "C98",
   "status": "proved",
   "theorems": [
    "C98_where_before_groups",
    "C98_tables_without_common_groups",
    "C98_renamed_column_refuted"
   ],
   "note": "C98_where_before_groups and C98_tables_without_common_groups, for the columns of C17, with C98_where_demo and C98_tables_demo. The proviso is needed: C98_renamed_column_refuted (`SELECT n + 1 AS n, count() FROM t WHERE n GROUP BY k`: the condition is about the column, not about the field of the row)."
  },
  {
   "property": "C99",
   "status": "proved",
   "theorems": [
    "C99_script_means",
    "C99_text_to_results",
    "C99_last_query_groups",
    "C99_lazy_assignment_refuted"
   ],
   "note": "C99_script_means and C99_text_to_results, with C99_demo (a table assigned, a variable computed from it, two queries). C99_last_query_groups (with C99_group_demo): the last query may have GROUP BY and aggregates as in C17. C99_lazy_assignment_refuted: with `LET x = y` the variable is the expression and sees what is assigned later (C22), so the law is about `<=` only."
  },
  {
   "property": "C100",
   "status": "proved",
   "theorems": [
    "C100_unused_assignment_group",
    "C100_replaced_assignment_group",
    "C100_exchange_assignments_group",
    "C100_unused_assignment",
    "C100_replaced_assignment",
    "C100_exchange_assignments",
    "C100_inline_query",
    "C100_mentioned_variable_refuted"
   ],
   "note": "C100_unused_assignment, C100_replaced_assignment, C100_exchange_assignments and C100_inline_query, anywhere in a script (statements before and after), with C100_unused_demo, C100_replaced_demo, C100_exchange_demo and C100_inline_demo. The first three also for scripts whose queries group, order and limit (C100_unused_assignment_group, C100_replaced_assignment_group, C100_exchange_assignments_group, each with a demo). C100_mentioned_variable_refuted: the variable must not be mentioned elsewhere in the query."
  },
  {
   "property": "C101",
   "status": "proved",
   "theorems": [
    "C101_script_does",
    "C101_text_to_results",
    "C101_one_meaning",
    "C101_having",
    "C101_order_and_limit_later"
   ],
   "note": "C101_script_does, C101_text_to_results (from the text to the parts that are sent, under every schedule) and C101_one_meaning, with C101_demo and C101_text_demo (a grouped and ordered query is assigned, read, and grouped again with LIMIT). C101_having with C101_having_demo: SELECT * FROM the assigned groups WHERE w keeps exactly the groups for which w holds, in order (rows whose fields are not nil). C101_order_and_limit_later with C101_later_demo: ORDER BY and LIMIT give the same rows in the grouping query and in SELECT * over its assigned result."
  }
 ]
}