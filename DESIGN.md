# Formal model of Velocidex/vfilter

The Go source in /repo is read as text; the model is written in Gallina in
`rocq/theories`, function by function, with a `file:lines` citation on each
definition. Nothing in /repo is built or run.

## Conventions

* A file named after a part of the code (`Scope.v`, `Eval.v`, `Parser.v`, ...)
  holds executable definitions transcribed from Go, and no proofs.
  `...Proofs.v` and the like hold lemmas. `...Props.v` holds the
  specification vocabulary, the theorems named in MANIFEST.json, examples
  that show the hypotheses are met, and `Print Assumptions`.
* When the code does not satisfy the property as written, there is a
  `..._refuted` theorem (a concrete witness, accepted by the kernel by
  computation) and a `..._partial` theorem for the part that holds.
  MANIFEST.json then says `partial`. `proved` is only used when the
  statement in properties.jsonl is proved as written.
* int64 arithmetic is explicit two's complement (`wrap64`). float64 is the
  standard library's computable `SpecFloat` (no axioms). Go strings are
  byte strings (`Coq.Strings.String`).
* Channels and goroutines are small-step transition systems; theorems about
  them quantify over all executions.
* A Go panic is an outcome of the model (`Panic`, `RPanic`), not an undefined
  case; so is running out of fuel, and theorems about results exclude it or
  show that more fuel does not change the answer.

## Trusted base

* The kernel of Coq 8.16.1, and `coqchk` which `vcheck` runs over every
  module.
* Axioms: `Print Assumptions`, at the end of each `...Props.v`, says "Closed
  under the global context" for every theorem named in MANIFEST.json. No
  axiom of the standard library is used. (The verdict lists seven entries of
  `Coq.ssr.ssrunder`; these are parameters of a sealed module of the ssreflect
  plugin's library that is loaded with it, and no theorem depends on them.)
* The transcription from Go to Gallina, described in the comments, and the
  contracts below about code that is not in /repo.

### Contracts about code outside the repository

* Go: two's complement integers, IEEE 754 binary64 with round to nearest even,
  UTF-8 iteration of strings, `append` (which may or may not reuse the backing
  array: the growth policy is a parameter of `Scope.v`), unbuffered channels as
  rendezvous, `select` choosing any ready case, mutexes and `sync.Map` as atomic
  operations, `time.Ticker` with a channel of one.
* `sort.Sort` (`GoSort.v`): for a comparison that is a strict weak order the
  result is a sorted permutation; otherwise just a permutation. The theorems
  take any function with this contract; `insertion_sort` shows there is one.
* `fmt.Sprintf("%v")`: a parameter (`env_sprint`). Where a theorem needs that
  integers print as decimals, this is a hypothesis of the theorem.
* The parts of Go's library that split() with a regular expression, format()
  and encode(type="utf16") call are parameters (`golib`): `regexp.Split`,
  `fmt.Sprintf`, `utf16.Encode`.
* `regexp`: `Compile` and `MatchString` are functions of their arguments.
* `strconv.ParseInt/ParseFloat/FormatInt/FormatFloat` (`Numeral.v`): modelled
  as exact decimal conversion with correct rounding, and the shortest decimal
  that reads back.
* `participle` (`Parser.v`): the parsing combinators with the lookahead of
  one, as the library's source defines them (a branch that consumed more than
  one token and failed is final).
* `encoding/json` (`Marshal.v`): reads back the tree it wrote, numbers as the
  nearest float64, invalid UTF-8 replaced.
* `ordereddict`: an association list; `Set` drops an existing key and puts the
  new entry at the end, `Update` keeps its place (`dict_set`, `dict_update`).

### How the transcription was checked

Nothing is run, but the project's own recorded results are: the model computes
them inside Coq.

* `EvalGolden.v`: queries of `fixtures/vql_queries.golden` and
  `fixtures/multi_vql_queries.golden`, evaluated by `Eval.v` to the recorded
  rows.
* `RunGolden.v`: from text to rows. The queries of `vfilter_test.go` are lexed,
  parsed, elaborated and evaluated to the rows recorded in the two fixtures
  (160 of them; the others use objects of the test program or EXPLAIN, or
  rely on rows not being computed after a LIMIT), and the
  149 clauses of `execTests` evaluate to the values written beside them.
* `ParseGolden.v`: every query of `vfilter_test.go` is parsed and formatted by
  the model to the texts recorded in `vql_queries.golden` and
  `multi_vql_queries.golden`; the clauses of `execTests` and
  `execTestsSerialization` parse or fail as the tests expect.
* `SourceCalls.v`: `outline_test.go` and the call sites of
  `TestVisitor.golden`. `MarshalProps.v`: `marshal/fixtures/
  Serialization.golden`.

`seeded/LOG.jsonl` records wrong programs: edits of the model that break a
claim, and the theorems that then fail to prove.

## What is modelled

| code | model |
|------|-------|
| `types/`, `utils/utils.go`, `utils/unquote.go` | `Value.v`, `Text.v` |
| `protocols/*.go` (Bool, Eq, Lt, Gt, Add, Sub, Mul, Div, Membership, Associative, Regex, Iterate, stored queries) | `Protocols.v`, `Regex.v`, `Flatten.v`, `Eval.v` |
| operators with short circuit (`vfilter.go` Reduce methods) | `Monad.v`, `Chains.v`, `Eval.v` |
| `scope/scope.go` variables, Copy, Close, destructors | `Scope.v`, `CloseRace.v` |
| `scope/dispatcher.go` registries, contexts, NewScope, AppendFunctions, AddProtocolImpl | `Registry.v` |
| `vfilter.go` Eval/Reduce of every expression, SELECT, LET, EXPLAIN-free statements; `vfilter_group.go`, `grouper/`, `sort/`, `aggregators/`, `scope/aggregators.go`, `lazy.go`, `stored.go`, `lambda.go`, `materializer/`, `utils/dict` | `Syntax.v`, `Eval.v`, `GoSort.v` |
| `functions/`: dict, if, len, get, split, encode, timestamp, format, scope, count, sum, min, max, enumerate, and host functions as interaction trees | `Eval.v`, `Builtins.v` |
| `plugins/`: if, foreach, chain, flatten, range, scope, and host plugins | `Eval.v`, `Foreach.v`, `Flatten.v`, `Range.v` |
| the goroutines and channels of SELECT, LIMIT, ORDER BY, chain, foreach | `Pipeline.v`, `Foreach.v` |
| `protocols/protocol_associative.go` on Go structs, `protocols/lazy_wrapper.go` | `HostObject.v` |
| `arg_parser/` | `ArgParser.v` |
| `api.go` | `Response.v` |
| `throttle.go` | `Throttle.v` |
| `tokenizer.go`, grammar of `vfilter.go` (151-196, 325-1045) | `Lexer.v`, `Numeral.v`, `Grammar.v`, `Parser.v` |
| the trees of the grammar as the Reduce methods see them: identifiers split, literals decoded, columns named | `Elab.v`, from `Grammar.v` to `Syntax.v` |
| `visitor.go` with ToStringOptions, call and definition sites; `outline.go` | `Format.v`, `Outline.v` |
| `reformat/visitor.go`, `visitor.go` with BreakLines | `Reformat.v`: every visit with BreakLines, abTest, line_break, new_line, the trimming of ReFormatVQL, all options; without comments. Checked on the 21 comment-free fixtures (`ReformatGolden.v`) |
| `vfilter.go` grammar with comments, MultiParseWithComments, `visitor.go` visitComment | `Comments.v`, `CommentFormat.v`: the same grammar with every place a comment is captured, and the visitor that writes them, so ReFormatVQL from text to text. Checked on all 27 fixtures (`CommentGolden.v`) |
| `marshal/`, `marshal.go`, `scope/marshal.go` | `Marshal.v` |
| `types/introspection.go` | `Introspect.v`; what reflect says about types is data |
| `callFunction` (vfilter.go), `aggregators/aggregators.go`, the calls of `functions/aggregates.go` made by several goroutines | `SharedCalls.v`: one node of the query, any number of calls, steps under one lock are atomic |
| `lazy.go` Get and Reduce called by several goroutines | `LazyShared.v`: one column or argument, any number of reads; reads and writes of one Go variable are atomic |
| `checkCallingArgs` (stored.go), `getParameterNames` (vfilter.go) | `CallCheck.v`: the messages as data, from the names of the parameters and of the arguments |
| all uses of `sync.Mutex` in `scope/`, `vfilter.go`, `visitor.go`, `aggregators/`, `arg_parser/`, `protocols/lazy_wrapper.go` | `Locks.v`: for each call the locks it takes and releases, in order; goroutines that make calls |
| `vfilter.go` table of lexical rules | `LexRules.v`: the table as text, the patterns it uses, leftmost-first matching (the scanner of `Lexer.v` is proved equal to it, C85) |
| `vfilter.go` struct tags, `lambda.go` | `GrammarText.v`: the tags as text, the notation, what it accepts (the parsers of `Parser.v` and `Comments.v` are proved to accept the same, C86); `LambdaText.v`: lambdas from their text |
| Scripts with GROUP BY | `ScriptGroupProps.v` (`query_means`, `script_does`), `ScriptHavingProps.v` (`having`, `decides`, `later`, `at_once`), over `GroupEval.v` and `ScriptProps.v` |
| Laws of scripts | `ScriptLawsProps.v` (`script_names`, `both_yield`), over `ScriptProps.v` and `Laws2.v`; `ScriptGroupLawsProps.v`, `ScriptHavingProps.v` (`any_script_names`, `both_do`) with GROUP BY |
| Scripts of assignments and queries | `ScriptProps.v` (`script_means`), over `Parser.v`, `Elab.v`, `Eval.v`, `SchedProps.v`, `Response.v` |
| WHERE and GROUP BY, tables without common groups | `GroupSplitProps.v` (`accepted`, `not_renamed`, `apart`), over `GroupSpec.v` and C17 |
| From text to results | `EndProps.v` (`sees`: what the goroutine that cuts parts observes of a schedule), over `Parser.v`, `Elab.v`, `SchedProps.v`, `Response.v` |
| Syntax to goroutines | `SchedProps.v` (`layout`, `from_layout`, `group_layout`: the goroutines of a query of `Syntax.v` as a tree of `Pipeline.v`), over `PureSpec.v`, `Eval.v` by C14, C17 and `Pipeline.v` by C39 |
| Look-ahead and back-pressure | `Lookahead.v` (`over_rows`, `left_over`, `goroutines`), `LookaheadProps.v`, over `Pipeline.v` |
| GROUP BY over permuted tables, totals | `GroupLaws.v` (`orderless`, the laws of the meaning), `GroupLawsProps.v`, over `Eval.v` by C17 |
| nested queries compared with flat ones | `Laws.v`, `Laws2.v` (the laws of the meaning), `LawsProps.v`, `Laws2Props.v`, over `Eval.v` by C14 |
| every function of the evaluator: where it can panic and what keeps it from doing so | `NoPanic.v` (what is asked), `NoPanicEval.v` (the invariant), over `Eval.v` |
| `protocols/stored_query.go`, `protocols/protocol_associative.go` and `types/stored_query.go`: the loops that read a query inside of an expression | `QueryValue.v`, over the goroutines of `Pipeline.v` |
| `scope/scope.go`, `scope/dispatcher.go` accesses and locks of the calls | `DataRaces.v` |
| what the struct tags capture | `GrammarTree.v` |
| `scope/scope.go`, `scope/dispatcher.go` settings, aggregator contexts | `Settings.v` |
| `explain/logging_explainer.go`, EXPLAIN in `vfilter.go` and `scope/scope.go` | `Explain.v`: the evaluator of `Eval.v` with messages; which queries are explained is arbitrary |
| `types/stats.go`, `scope/version.go`, `scope/dispatcher.go` (similar plugins), the message of `Plugin.Eval` | `Catalogue.v`; every atomic operation is one step, the order of a walk over a map is arbitrary |
| `findEndPos`, `reportError`, `GetStatements` | `Text.v` |

## What is not modelled, and known simplifications

* Log messages other than those of `explain/`, the texts of `Describe`/`Info`, `docs/`, `utils/json.go`, `_examples`. Of
  `functions/generic.go` and `plugins/generic.go` only `Call` is modelled: `FHost` (which it hands its arguments on to)
  and `QPlugin` (Pipeline.v).
* In `Eval.v` a query is the list of its rows: it is evaluated to the end
  before the next stage runs. The channels are in `Pipeline.v`, where every
  interleaving is considered for stages whose row functions are arbitrary but
  pure. Consequently, in `Eval.v` the effects of rows after a LIMIT happen too;
  theorems about effects (C21, C22, C38) are stated for queries without LIMIT.
* The order in which missing defaults are applied is a Go map's; `Eval.v` uses
  the order written, and the theorems about defaults are about their values.
* In `Eval.v` attributes of host types are parameters (`p_assoc`). What
  reflection finds in a Go struct and its methods (DefaultAssociative,
  LazyWrapper) is modelled on its own in `HostObject.v`; struct types that embed
  a pointer to themselves are left out there.
* Positions of tokens appear in `Text.v` (C44) and not in the trees.
* A materialised query kept in memory is a list; the host may install another
  materializer.

## Property by property

For each property: its status, the theorems by file, and what is missing or
false.

### C01 Comparison operators are coherent on like-typed scalars — proved

* `OpsProps.v`: `C01_trichotomy`, `C01_derived_operators`, `C01_lt_transitive`, `C01_int_order_is_numeric`, `C01_string_order_is_lexicographic`, `C01_float_order_is_numeric`

### C02 a > b is the converse of b < a — partial

Statement is false of the code (C02_refuted): strings and integers are both < and >, booleans are not ordered by >. Proved on numbers/times, strings, NULL, arrays, dicts and queries.

* `OpsProps.v`: `C02_refuted`, `C02_gt_converse_of_lt_partial`

### C03 Equality is an equivalence relation — partial

Statement is false of the code (C03_refuted). Equivalence proved on NULL, strings, arrays, dicts over integers and booleans in int64 range, or over floats that are not NaN.

* `OpsProps.v`: `C03_refuted`, `C03_equivalence_partial`

### C04 NULL behaves as an absorbing, incomparable value — partial

NULL equals a nil array (C04_null_equality_refuted); everything else in the statement is proved, for any registered implementations.

* `OpsProps.v`: `C04_null_operators`, `C04_null_equality_partial`, `C04_null_equality_refuted`

### C05 Integer arithmetic is exact modulo 2^64 — proved

* `OpsProps.v`: `C05_int_arithmetic`, `C05_add_sub_cancel`, `C05_chain_is_sum`, `C05_chain_reorder`

### C06 Division by zero yields NULL, and only division by zero does — partial

False for an integer divided by a float (C06_refuted); proved when the left operand is a float or the right one is not.

* `OpsProps.v`: `C06_refuted`, `C06_division_partial`

### C07 String building operators are memory bounded and never panic — partial

`"" * -1` and long repetitions whose length wraps 2^64 panic (C07_refuted); exact panic condition proved, and the 100 MB bound for every result.

* `OpsProps.v`: `C07_refuted`, `C07_add_bounded`, `C07_mul_bounded_partial`, `C07_mul_panics_iff`

### C08 Truthiness of WHERE/AND/OR operands — partial

float32 and uint host values are always false (C08_refuted); proved for every other value, and for stored queries as conditions: the query is run and is true exactly if it has rows.

* `LetProps.v`: `C08_not_of_a_stored_query_partial`, `C08_where_a_stored_query_partial`
* `OpsProps.v`: `C08_refuted`, `C08_truthiness_partial`

### C09 AND/OR/NOT short circuit and compute boolean connectives — proved

* `OpsProps.v`: `C09_and`, `C09_or`, `C09_not`, `C09_and_value`, `C09_or_value`

### C10 Indexing and slicing are total with clamping semantics — proved

Arrays and strings; NULL for other values. Stored queries index their materialised rows.

* `OpsProps.v`: `C10_index`, `C10_slice`, `C10_other_values`

### C11 IN means membership — proved

* `OpsProps.v`: `C11_in_array`, `C11_in_string`, `C11_in_dict`, `C11_in_nothing_else`, `C11_in_null`

### C12 The not-equal operators agree — partial

`<>` parses but always evaluates to false (C12_refuted).

* `OpsProps.v`: `C12_ne_is_negation_partial`, `C12_refuted`, `C12_disagree_refuted`

### C13 A negated symbol always denotes the negation — partial

Refuted: the sign is honoured only the first time a node is evaluated; afterwards -x is x, for every number and history (C13_every_later_evaluation_ignores_the_sign). Proved for the first evaluation.

* `LetProps.v`: `C13_first_evaluation_partial`, `C13_every_later_evaluation_ignores_the_sign`, `C13_second_row_refuted`

### C14 SELECT ... WHERE is filter and projection in order — proved

Rows of any FROM clause, any expressions without side effects over any nesting of scopes, in any state; FROM may be a variable (list, dictionary, materialised query) or foreach(), chain(), if(), flatten(), range(); columns and arguments of these plugins may be subqueries with WHERE, ORDER BY and LIMIT, nested to any depth and referring to the row; order preservation for arbitrary expressions is C14_rows_in_order_any_expression, the value of a subquery column for arbitrary queries (including the nil list of an empty one) C14_subquery_column_of_any_query.

* `SelectProps.v`: `C14_select_is_filter_and_projection`, `C14_query_yields_its_rows`, `C14_select_from_variable`, `C14_subquery_column_of_any_query`, `C14_rows_in_order_any_expression`

### C15 LIMIT n keeps exactly the first n rows — partial

LIMIT n >= 1 proved for any query. Refuted: LIMIT 0 emits the first row (C15_limit_zero_refuted).

* `SelectProps.v`: `C15_limit_keeps_the_first_rows_partial`, `C15_limit_yields_only_those`, `C15_limit_zero_refuted`

### C16 ORDER BY sorts without losing rows — partial

Permutation for any query and key; integer and string columns sorted both ways given the contract of Go's sort (sort_contract, satisfied by insertion_sort). Refuted: a NULL does not sort before the empty string, and columns of host type uint are not sorted.

* `SelectProps.v`: `C16_order_by_permutes`, `C16_order_by_integers_partial`, `C16_order_by_strings_partial`, `C16_nulls_first_refuted`, `C16_uint_column_refuted`

### C17 GROUP BY emits one row per group in first-seen order — partial

Proved for every table, WHERE, key expression and list of columns with distinct names, each an effect-free expression in which aggregates may stand under arithmetic, comparison, NOT, member access, in lists, in lists given to functions and left of AND/OR (`sum(item=n) / count() + 1`, `[count(), max(item=n)]`, `format(format="%v of %v", args=[count(), n])`, `count() > 2 OR n`): the query yields exactly the specified group rows (first-seen order, last row's columns, aggregates over the group). Missing: aggregates that are themselves an argument of another function (these are evaluated lazily) and in subqueries. Findings, refuting the statement as written: two columns of one name, or an aggregate that overrides a star column, count every row twice; an aggregate right of AND/OR or in a branch of if() skips the rows for which that side is not evaluated.

* `GroupProps.v`: `C17_group_by_partial`, `C17_one_row_per_key`, `C17_first_seen_order`, `C17_result_columns`, `C17_plain_column`, `C17_two_columns_of_one_name_refuted`, `C17_overridden_star_column_refuted`, `C17_aggregate_behind_and_refuted`, `C17_aggregate_in_if_refuted`

### C18 GROUP BY separates rows with different keys — partial

Proved: same group iff the keys print the same, which for strings and (given %v prints decimals) integers is equality. Finding: 1 and "1" share a group, and GROUP BY a, b merges rows such as ("x y","z") and ("x","y z") (refutations).

* `GroupProps.v`: `C18_same_group_iff_printed_same_partial`, `C18_string_keys`, `C18_integer_keys`, `C18_integer_and_string_refuted`, `C18_several_columns_refuted`, `C18_group_by_two_columns_refuted`, `C18_group_by_mixed_refuted`

### C19 Aggregate functions equal a fold over their group — partial

Proved: count/sum/min/max/enumerate in a group row, alone or inside an expression, are the fold over exactly that group's items (with closed forms for int64), and running folds without GROUP BY. Findings: an aggregate that WHERE reads counts across groups, a second run of a stored query counts on, an aggregate behind AND sees only the rows whose left side holds, sum is NULL when the last item is no number, min/max with NULL depend on the order (refutations).

* `GroupProps.v`: `C19_aggregate_over_the_group`, `C19_ratio_of_aggregates`, `C19_aggregates_in_a_list_argument`, `C19_count`, `C19_sum`, `C19_min`, `C19_max`, `C19_enumerate`, `C19_running_aggregates_partial`, `C19_aggregate_in_where_refuted`, `C19_aggregate_behind_and_refuted`, `C19_second_run_refuted`, `C19_max_null_refuted`, `C19_sum_null_refuted`

### C20 SELECT * preserves every column and explicit columns win — proved

Columns are expressions without side effects, or subqueries of that kind.

* `SelectProps.v`: `C20_star_then_columns`, `C20_columns_then_star`

### C21 Column expressions are lazy and memoised — partial

Proved for expressions of any kind and any history: a column that was accessed is not evaluated again, neither by an access nor when the row is emitted. For columns with distinct names and WHERE over effect-free columns: no effect for rejected rows, each column's effects once and in order for emitted rows. Refuted: with two columns of one name the first is never evaluated and the second twice.

* `LazyProps.v`: `C21_accessed_column_is_not_evaluated_again`, `C21_accessed_column_is_reused`, `C21_once_per_emitted_row_partial`, `C21_two_columns_of_one_name_refuted`

### C22 LET = is lazy, LET <= is materialised once — partial

LET = evaluates nothing, each reference at any later time is exactly an evaluation of the body in the referrer's scope; LET <= evaluates once and later references give the value and change nothing. Refuted only when the value is itself a stored expression (LET X <= scope().Y).

* `LetProps.v`: `C22_let_evaluates_nothing`, `C22_every_reference_evaluates_the_body`, `C22_the_body_sees_the_referrers_names`, `C22_every_reference_runs_the_query`, `C22_materialised_at_definition`, `C22_query_materialised_at_definition`, `C22_later_references_see_the_value_partial`, `C22_later_references_see_the_rows`, `C22_stored_expression_refuted`

### C23 Calling a LET function binds parameters hygienically — partial

Both directions, for all expressions: arguments in the caller's scope in order, then missing defaults, then the body with the parameters over the caller's frames; shadowing; caller's variables unchanged; a stored query called in an expression evaluates its arguments at the call and runs with them and the caller's frames when it is read. Refuted: a LET function named like a registered function is not called.

* `LetProps.v`: `C23_call_of_an_expression_partial`, `C23_call_of_a_query_partial`, `C23_call_of_a_query_in_an_expression_partial`, `C23_called_query_runs_at_the_call`, `C23_parameters_are_the_names_passed`, `C23_parameters_have_the_values_passed`, `C23_parameters_shadow`, `C23_other_names_are_the_callers`, `C23_callers_variables_unchanged`, `C23_registered_function_wins_refuted`

### C24 Default parameters apply exactly to missing arguments — partial

Proved for parameters written without backquotes or whose default is not a query. Refuted: a quoted parameter with a query as default stays unbound, and a query called in an expression with no arguments at all is not called (NULL).

* `LetProps.v`: `C24_passed_argument_is_used`, `C24_default_of_a_passed_argument_is_not_evaluated`, `C24_missing_argument_takes_its_default`, `C24_only_parameters_get_defaults`, `C24_defaults_have_distinct_names`, `C24_quoted_parameter_refuted`, `C24_no_arguments_refuted`

### C25 Recursive definitions cannot hang or crash the evaluator — partial

The property as stated is false of the code: three programs never end (a default that calls the function it belongs to; a definition whose value is itself through scope(); a query argument of a definition named like its own source), because these paths do not pass the depth check or do not increase the depth. Proved: every program of a syntactic fragment ends with one outcome. The fragment: definitions that mention any names, mutual recursion through expressions, stored queries, host functions and the functions if, get (with an item), len, split, encode, timestamp, format, count and sum, the plugins if, foreach, chain, flatten, range (without step) and host plugins with queries as arguments at any nesting. Outside it: scope(), query arguments of definitions and functions, symbols in defaults, dict, min, max, enumerate, get without an item, range with a step, list elements other than literals and comparisons. At the limit a symbol is NULL and a query has no rows.

* `HaltProps.v`: `C25_recursive_definitions_end_partial`, `C25_symbol_at_the_limit_is_null`, `C25_query_at_the_limit_is_empty`
* `Recursion.v`: `C25_default_that_calls_the_function_refuted`, `C25_definition_equal_to_itself_refuted`, `C25_query_argument_named_like_its_source_refuted`

### C26 Child scopes never leak variables — proved

For every history of scope operations, every growth policy of Go's append and every destructor behaviour.

* `ScopeProps.v`: `C26_scope_sees_its_history`, `C26_no_leak`, `C26_copy_inherits`, `C26_append_visible`

### C27 Name resolution is innermost-first — proved

Including the refusal at 1000 nested copies.

* `ScopeProps.v`: `C27_resolution`, `C27_stack_limit`

### C28 Destructors run exactly once, children first, last-in first-out — proved

Destructors that register no further destructor; a destructor that re-registers itself more than ten times is covered by C29.

* `ScopeProps.v`: `C28_close_runs_all_waiting`, `C28_close_runs_exactly_once`, `C28_closing_again_runs_nothing`, `C28_each_accepted_destructor_once`

### C29 A destructor accepted by a scope is eventually run by Close — partial

False of the code: an AddDestructor racing with the end of Close, or a tenth rescheduling round, is accepted and never run (C29_race_refuted, C29_late_append_refuted, C29_ten_rounds_refuted). Proved: nothing runs twice, and everything accepted runs when no AddDestructor finishes during a Close.

* `CloseRaceProps.v`: `C29_accounting_partial`, `C29_quiet_partial`, `C29_race_refuted`, `C29_late_append_refuted`, `C29_ten_rounds_refuted`

### C30 A parent never forgets a live child — proved

* `ScopeProps.v`: `C30_close_reaches_live_children`, `C30_close_exactly_live_descendants`

### C31 Scopes built from a scope have isolated registries — proved

* `RegistryProps.v`: `C31_registries_follow_history`, `C31_families_are_permanent`, `C31_new_scope_is_alone`, `C31_isolated`, `C31_clear_context`

### C32 Protocol dispatch: most recent applicable implementation wins — proved

Binary operators and Bool; implementations registered with AddImpl.

* `OpsProps.v`: `C32_binary_operators`, `C32_bool_newest_first`, `C32_builtin_first`

### C33 range() enumerates the arithmetic progression — partial

Exact progression for a positive (or absent) step that leaves room below 2^63, also with computed arguments in a query (C33_range_in_a_query). Refuted: a negative step emits nothing, and near the largest integer the loop wraps and never ends.

* `RangeProps.v`: `C33_range_partial`, `C33_fuel_irrelevant`, `C33_negative_step_refuted`, `C33_never_ends_refuted`
* `SelectProps.v`: `C33_range_in_a_query`

### C34 chain() concatenates its queries — proved

For every schedule: a prefix of the concatenation at any time, all of it at the end. Termination and single close are C39. C34_chain_yields_the_rows_of_its_queries is the same for chain() of queries written in VQL, from the arguments to the rows.

* `PipelineProps.v`: `C34_chain`
* `SelectProps.v`: `C34_chain_yields_the_rows_of_its_queries`

### C35 flatten() is the cartesian expansion of array cells — partial

Proved exactly for cells whose members are neither NULL nor dictionaries with a _value member; C35_flatten_of_a_query takes the rows from a query written in VQL. Refuted: a NULL member is dropped, and a dictionary cell with a _value member is replaced by it.

* `FlattenProps.v`: `C35_flatten_any`, `C35_flatten_partial`, `C35_members_partial`, `C35_plugin`, `C35_null_member_refuted`, `C35_value_column_refuted`
* `FlattenRows.v`: `C35_object_rows`
* `SelectProps.v`: `C35_flatten_of_a_query`

### C36 foreach() runs the query exactly once per row under every schedule — proved

All worker counts >= 1, all schedules: each row handed once, per-row outputs in order, permutation of the whole, input order with one worker, termination without deadlock. C36_foreach_runs_the_query_for_each_row and C36_foreach_over_a_list: the query of foreach() written in VQL sees the row and what surrounds it. Additional finding: a negative number of workers deadlocks (C36_negative_workers_refuted).

* `ForeachProps.v`: `C36_each_row_once`, `C36_permutation`, `C36_every_execution_ends`, `C36_one_worker_in_order`, `C36_negative_workers_refuted`, `C36_without_query`, `C36_worker_count`
* `SelectProps.v`: `C36_foreach_runs_the_query_for_each_row`, `C36_foreach_over_a_list`

### C37 Cancelling foreach() always unblocks it — partial

Refuted: when the workers have seen the cancellation, the producer blocks for ever in RunScope. Proved: this is the only way not to return.

* `ForeachProps.v`: `C37_cancel_partial`, `C37_refuted`, `C37_without_query`

### C38 if() evaluates only the selected branch — partial

Proved for the function with expression branches and for the plugin with query branches, with and without else, for any effects; C38_if_as_a_plugin gives the rows in terms of the queries. Refuted: expression branches of the plugin, and a bracketed list as branch of the function, are evaluated although not selected.

* `LazyProps.v`: `C38_if_function_partial`, `C38_if_plugin_partial`, `C38_if_function_without_else_partial`, `C38_if_plugin_without_else_partial`, `C38_plugin_expression_branches_refuted`, `C38_list_branch_refuted`
* `SelectProps.v`: `C38_if_as_a_plugin`

### C39 Streaming pipeline delivers exactly the rows, in order, and closes once — partial

Proved for every query tree: prefix until cancelled, complete and closed at the end, no infinite execution, one close and nothing after it, all goroutines return (also under LIMIT), cancellation releases everything without ORDER BY. Refuted: after cancellation the reader may see a gap (a subsequence, proved, not a prefix).

* `PipelineProps.v`: `C39_prefix_until_cancelled`, `C39_complete`, `C39_every_execution_ends`, `C39_closed_once`, `C39_closed_only_by_close`, `C39_all_goroutines_return`, `C39_cancel_releases_all`, `C39_statement_cancels_alone`, `C39_subsequence_partial`, `C39_prefix_refuted`

### C40 Cancelled ORDER BY queries release their goroutines — partial

Refuted: the goroutine feeding the sorter blocks for ever. Proved: only such feeders can be left, and none when not cancelled from outside.

* `PipelineProps.v`: `C40_only_feeders_left_partial`, `C40_refuted`, `C40_uncancelled_partial`

### C41 Response batching loses and reorders nothing — partial

Proved for every row sequence, every timer firing, every maxrows >= 1 and every encoder that does not fail; also for any encoder and a context that ends at any time the sent parts are in order a first part of the rows taken. False as stated for maxrows = 0 (empty parts and one row per part), and when the host's encoder fails (rows stay, the next part exceeds maxrows; a failure at the end loses the last rows and sends nothing).

* `ResponseProps.v`: `C41_parts_are_the_rows_partial`, `C41_nothing_reordered_or_invented`, `C41_zero_maxrows_refuted`, `C41_part_larger_than_maxrows_refuted`, `C41_final_part_not_sent_refuted`

### C42 String literals denote their unescaped contents — proved

Literals with escaped quotes/backslashes, plain and triple-quoted literals, over every token the lexer's String and MultilineString rules accept.

* `TextProps.v`: `C42_literal_round_trip`, `C42_plain_text`, `C42_multiline_verbatim`, `C42_total_and_bounded`

### C43 Quoted and dotted identifiers are split faithfully — partial

Joining/splitting and unquoting proved for components of Unicode scalar values; an identifier with a backslash is not recovered by Unquote_ident and loses its prefix (C43_backslash_refuted).

* `EscapeProps.v`: `C43_decoding`, `C43_unquote_escapes`
* `TextProps.v`: `C43_join_split`, `C43_unquote_ident_partial`, `C43_unquote_bare`, `C43_backslash_refuted`

### C44 Token positions are exact — partial

The end offset counts characters instead of bytes, so it is wrong after multi-byte text (C44_multibyte_refuted); proved exact on ASCII text. For every text the scanner accepts, the text is its tokens in order with blanks between and nothing else, and it rejects only a text with a part that no rule fits.

* `LexCover.v`: `C44_scanner_covers_text`, `C44_scanner_rejects`
* `TextProps.v`: `C44_token_positions_partial`, `C44_multibyte_refuted`, `C44_offset_counts_characters`

### C45 Reporting a parse error never crashes — proved

The last byte of the expression is never quoted; stated exactly in the theorem.

* `TextProps.v`: `C45_report_error`, `C45_never_panics`

### C46 Multi-statement parsing preserves statements and comments — partial

Comments after the last statement are dropped (C46_trailing_comment_refuted); every other comment is attached exactly once, to the following statement.

* `TextProps.v`: `C46_statements_partial`, `C46_comments_once_partial`, `C46_trailing_comment_refuted`

### C47 Argument extraction is all or nothing on names — partial

Proved for structures whose declared names are distinct, for every argument list, field type and coercion behaviour; what is stored has the type of the field and is the argument's value (C47_stored_type, C47_stored_value). Refuted: two fields with the same name hide an undeclared argument, and a float32 field panics.

* `ArgParserProps.v`: `C47_tags`, `C47_success_partial`, `C47_errors`, `C47_complete`, `C47_double_star`, `C47_stored_type`, `C47_stored_value`, `C47_duplicate_fields_refuted`, `C47_float32_field_refuted`
* `FreeArgProps.v`: `C47_free_form`

### C48 A list argument has one string per element — partial

Refuted: a dictionary with a single string member adds two strings. Proved when no element is an object with exactly one member.

* `ArgParserProps.v`: `C48_one_string_per_element_partial`, `C48_single_value_is_one_string`, `C48_elements_kept`, `C48_single_member_refuted`

### C49 Formatting a query and parsing it back gives the same query — partial

proved for every text the parser accepts whose tree passes clean_vql (a decidable check that names the exclusions): Parse of FormatToString of the tree is the same tree, numbers respelled with the same value. Refuted outside: x[] prints as x., out-of-range numbers print as FALSE, the alias of a star, empty parameter lists, quoted and repeated LET parameters are lost. Every number literal that has a value is proved to keep it, floats included (the shortest decimal printed reads back as the same float).

* `FormatProps.v`: `C49_statement_round_trip_partial`, `C49_expression_round_trip_partial`, `C49_number_value`, `C49_empty_index_refuted`, `C49_bad_number_refuted`, `C49_star_alias_refuted`, `C49_empty_parameters_refuted`, `C49_quoted_parameter_refuted`, `C49_repeated_parameter_refuted`

### C50 Serialised scopes restore the same definitions — partial

Every scope whose saved variables are booleans, int, finite float, text, arrays, rows, dictionaries or definitions without defaults, with parameters that need no quotes and a body the formatter is right about, is saved, and restored over any scope in any order of the variables: values as written (integers as the nearest float64), definitions with the same name, parameters and body; all other names are untouched. Scalars and arrays are equal in VQL to what is restored. False in general: defaults of parameters are dropped, quoted parameters lose the definition, NULL variables are lost, one NaN fails everything, aliases move, backslashes in names, invalid UTF-8 and integers beyond 2^53 change.

* `MarshalProps.v`: `C50_definition_partial`, `C50_scope_partial`, `C50_nothing_else_changes`, `C50_equal_value`, `C50_defaults_refuted`, `C50_quoted_parameter_refuted`, `C50_backslash_name_refuted`, `C50_unclean_body_refuted`, `C50_null_variable_refuted`, `C50_one_bad_variable_refuted`, `C50_alias_refuted`, `C50_bytes_refuted`, `C50_integers_refuted`

### C51 Regular expression matching is unaffected by the cache — partial

Proved for every history of calls and for every interleaving of goroutines: the answers are those of a fresh compile of the pattern, and a goroutine compiles a pattern at most once. False as stated in two cases, both proved: a host that stores its own value under the cache's key (__re + pattern) changes the answers, and two goroutines that miss together compile the same pattern twice.

* `RegexProps.v`: `C51_answers_do_not_depend_on_the_history`, `C51_answers_do_not_depend_on_the_schedule`, `C51_stored_value_changes_the_answer_refuted`, `C51_two_goroutines_compile_twice_refuted`

### C52 Any value can be iterated as rows — proved

For every value and every set of registered iterators, the newest applicable one first.

* `FlattenProps.v`: `C52_iterate`

### C53 Lambdas check their arity — partial

All lambdas and argument lists; parameters of one name: the last argument. Refuted: a parameter in backquotes is never found by the body.

* `LetProps.v`: `C53_wrong_arity`, `C53_right_arity`, `C53_distinct_parameters`, `C53_quoted_parameter_refuted`

### C54 Lazy expressions are evaluated at most once — partial

Reduce: after a value was obtained, every later Reduce returns it and changes nothing, whatever happens in between; the first evaluates the expression once in the caller's scope. Refuted: ReduceWithScope evaluates it every time.

* `LazyProps.v`: `C54_evaluated_at_most_once_partial`, `C54_first_access`, `C54_reduce_with_scope_refuted`

### C55 Materialisation preserves rows — proved

For every query and value; indexing provided the host registers no Associative of its own for it.

* `LetProps.v`: `C55_materialised_rows`, `C55_running`, `C55_iterating`, `C55_from`, `C55_again`, `C55_indexing`, `C55_column`

### C56 Throttler never blocks an unthrottled query and closes idempotently — partial

Proved: with rate 0, above 100 or 100 no ChargeOp ever waits, under any schedule; calls of Close that do not overlap may be repeated and never panic, and release every waiting ChargeOp; before Close there is at most one operation for each tick. False in general, both proved: two goroutines that close at once close a closed channel; negative, NaN and very small rates panic in NewTicker.

* `ThrottleProps.v`: `C56_unthrottled_never_waits`, `C56_close_any_number_of_times`, `C56_repeated_close`, `C56_one_operation_for_each_tick`, `C56_concurrent_close_panics_refuted`, `C56_rates_that_panic_refuted`

### C57 The outline lists calls faithfully — proved

For every text that parses: the function entries are a subsequence of the calls of the text as written, so each stands for a call of its own, in order; and a query has one entry per column, named by the alias.

* `OutlineProps.v`: `C57_one_entry_per_column`
* `SourceCalls.v`: `C57_functions_in_source_order`

### C58 Escape sequences in string literals denote their characters — partial

Proved for well-formed escapes; a malformed \x escape is not copied unchanged (C58_malformed_refuted), what happens instead is C58_malformed_partial.

* `TextProps.v`: `C58_escapes`, `C58_malformed_partial`, `C58_malformed_refuted`

### C59 Parsing decides every text — proved

In the model the recursion of participle is bounded by a number; the theorems show that a larger bound never changes the answer.

* `ParserTotal.v`: `C59_parse_any_bound`, `C59_multi_parse_any_bound`, `C59_parse_rejects_for_a_reason`

### C60 Formatting settles — partial

Proved for statements that pass clean_vql, the same decidable check as C49. Refuted without it: x[] changes again when formatted twice.

* `FormatTwice.v`: `C60_format_settles_partial`, `C60_expression_settles_partial`, `C60_format_unsettled_refuted`

### C61 Call sites list every reference exactly once — partial

Proved for every list of statements whose LET parameters have distinct names: exactly the references of the tree, in order, once. On the text as written: nothing is listed that was not written (C61_nothing_invented), and for clean statements the calls of the formatted text are exactly the call sites. Refuted: a repeated LET parameter loses one reference and doubles another; of a chain of comparisons a < b < c the grammar drops b.

* `OutlineProps.v`: `C61_every_reference_once_partial`, `C61_repeated_parameter_refuted`, `C61_calls_of_the_text_partial`, `C61_definitions`, `C61_definition_defaults`
* `SourceCalls.v`: `C61_nothing_invented`, `C61_chained_comparison_refuted`

### C62 Reformatting keeps every statement — partial

Proved from text to text (C62_text_keeps_statements_partial) for every comment-free script of clean statements (the exclusions of C49) whose literals have no line that ends in a space, for all options: ReFormatVQL accepts it, the result parses to the same statements and is returned unchanged when reformatted. Refuted for literals: trailing spaces inside a literal are trimmed away, so its value changes. Scripts with comments are C72.

* `CommentProps.v`: `C62_text_without_comments_partial`, `C62_text_keeps_statements_partial`
* `ReformatProps.v`: `C62_reformat_keeps_statements_partial`, `C62_reformat_settles_partial`, `C62_options_only_lay_out_partial`, `C62_no_line_ends_in_space`, `C62_literal_trimmed_refuted`, `C62_layout_fits`

### C63 A number literal means the number written — partial

Proved: decimal integers without a leading 0 and hexadecimal integers within 64 bits are exactly the integer, for any number of digits; literals with a point or an exponent are the nearest float64, ties to even, and have no value only beyond the largest float. False as stated, all proved: a decimal integer beyond 64 bits silently becomes the nearest float (C63_integer_rounded_refuted); a leading 0 makes the digits octal, unless one of them is 8 or 9, when the literal is a float (C63_leading_zero_refuted); a hexadecimal literal beyond 64 bits has no value, which is only logged.

* `NumberProps.v`: `C63_decimal`, `C63_hexadecimal`, `C63_octal`, `C63_point`, `C63_exponent`, `C63_large_integer_partial`, `C63_leading_zero_float_partial`, `C63_integer_rounded_refuted`, `C63_leading_zero_refuted`, `C63_hexadecimal_lost_refuted`

### C64 Formatting does not change what a query yields — partial

Proved for every environment, fuel, scope and state: a statement that passes clean_vql (C49), a script that passes clean_script (C62) under any options, a definition that passes plain_def (C50). False in general, both proved with rows computed by the model: a hexadecimal literal that does not fit is NULL and prints as FALSE; a string literal with a line that ends in spaces loses them when reformatted. EXPLAIN is the subject of C79.

* `ElabProps.v`: `C64_formatted_statement_partial`, `C64_reformatted_script_partial`, `C64_restored_definition_partial`, `C64_formatting_changes_value_refuted`, `C64_reformatting_changes_string_refuted`, `C64_column_names`, `C64_word_literals`, `C64_symbol_names`, `C64_let_operators`

### C65 get() follows a path — partial

Proved for every value that is data and not a query, and every path without a component that looks like a number; without an item, for every variable of the pure fragment. False otherwise, all proved: a member named like a number is not found, get() looks for an index instead; a member with a dot in its name cannot be reached; the column of a query leaves out the rows without that column.

* `BuiltinProps.v`: `C65_get_follows_the_path_partial`, `C65_get_of_a_variable_partial`, `C65_number_like_member_refuted`, `C65_dotted_member_refuted`, `C65_column_of_a_query_refuted`

### C66 split() cuts a text at its separator — proved

For calls whose arguments are expressions of the pure fragment (den, PureSpec.v); splitting with a regular expression (sep) is Go's regexp.Split, a parameter.

* `BuiltinProps.v`: `C66_split_cuts_at_the_separator`, `C66_no_separator_is_null`

### C67 timestamp() yields the instant its number denotes — partial

Proved for epoch > 0, and for file times > 0 (rounded down to a second). False otherwise, both proved: timestamp(epoch=0) and every negative epoch are NULL although winfiletime can denote the same instants; file times lose the fraction of a second, so that two of them in order may be equal as timestamps.

* `BuiltinProps.v`: `C67_epoch_is_the_instant_partial`, `C67_winfiletime_is_the_instant_partial`, `C67_timestamps_compare_as_epochs_partial`, `C67_epoch_zero_refuted`, `C67_file_times_lose_the_fraction_refuted`

### C68 encode(type="hex") writes every byte — proved

For calls whose arguments are expressions of the pure fragment.

* `BuiltinProps.v`: `C68_hex_writes_every_byte`, `C68_hex_is_injective`

### C69 dict() gives its values back — partial

Proved for values without nil and queries, with lists nested at most nine deep. False for deeper lists, proved: what is inside of ten lists becomes NULL. A query is stored as the list of its rows.

* `BuiltinProps.v`: `C69_dict_gives_back_partial`, `C69_deep_list_refuted`

### C70 Members of a host object can be read — partial

Proved when no JSON tag of another field repeats the name and no field, at any depth of embedding, has the name of a method. Refuted: with such a tag a listed field is not found; a method is hidden by a field with that tag, or by a field of an embedded struct; the empty name finds the only field without a tag; a name that starts with a letter without upper case is listed but cannot be read. Fields of embedded structs can be read but are not listed.

* `HostObjectProps.v`: `C70_field_is_read_by_its_name_partial`, `C70_field_is_read_by_its_json_name_partial`, `C70_getter_is_called_partial`, `C70_other_names_are_missing_partial`, `C70_hidden_methods`, `C70_members_can_be_read_partial`, `C70_two_fields_one_name_refuted`, `C70_method_hidden_refuted`, `C70_method_hidden_by_embedded_field_refuted`, `C70_empty_name_refuted`, `C70_caseless_name_refuted`, `C70_promoted_fields_are_not_listed`
* `PromotedProps.v`: `C70_found`, `C70_promoted_field_partial`

### C71 A lazy attribute is computed once — partial

Proved for every schedule of any number of readers: at most one call, the same value for all, nobody waits for ever; what is found is what the object shows without the wrapper. Refuted: a getter whose result is a nil interface is called again by every reader.

* `HostObjectProps.v`: `C71_only_listed_attributes`, `C71_same_attribute_as_without_wrapper`, `C71_called_once_partial`, `C71_everybody_returns`, `C71_nil_result_called_again_refuted`

### C72 Comments survive reformatting — partial

Proved for all scripts, comments and thresholds, with line breaks on: when the comments stand above statements (any number, of all three kinds) ReFormatVQL returns a text with the same statements, the same comments in the same order up to spaces at the ends of their lines, each above the same statement; and the text is a fixed point when no comment line ends in a space. Excluded there: a comment after a WHERE or GROUP BY list that has a comma. False as stated elsewhere, all proved: a comment inside an expression swallows the code after it, so that another script is returned; a comment between the name and the arguments of a call inside a list makes the call disappear; comments are lost (the second after WHERE, those below the last statement); valid scripts are refused (two comments above an expression, one before WHERE or AS, two after GROUP BY a, b); without line breaks a comment above a statement hides the statement; spaces at the end of a comment change the layout, so that reformatting does not settle.

* `CommentProps.v`: `C72_comments_above_statements_partial`, `C72_comments_settle_partial`, `C72_comment_spaces_settle_refuted`, `C72_comment_swallows_code_refuted`, `C72_comment_changes_call_refuted`, `C72_comment_lost_refuted`, `C72_last_comment_lost_refuted`, `C72_valid_script_refused_refuted`, `C72_comment_without_breaks_refuted`

### C73 Arithmetic on floats is correctly rounded — partial

Proved for subtraction and multiplication of all finite numbers with at least one float, for division (where the zero test looks at the right operand, see C06), for addition when the left operand is a float or an integer that fits int64, and for infinities and NaN. Refuted: a uint or a boolean plus a float is NULL, although a float plus one is not; a uint64 above 2^63 on the left of + counts as negative; an integer plus a float32 leaves the float32 out; an integer is rounded before it is added, so the sum of 2^53 + 1 and 1.0 is not 2^53 + 2.

* `FloatProps.v`: `C73_add_partial`, `C73_subtract`, `C73_multiply`, `C73_divide_partial`, `C73_exact`, `C73_not_finite`, `C73_integer_rounded_first_refuted`, `C73_large_unsigned_refuted`, `C73_left_operand_refuted`, `C73_float32_dropped_refuted`, `C73_integer_types`, `C73_positive_zero`

### C74 A value given for a query stands for rows — partial

Proved for every value other than a Go nil, with lists that hold no lists or queries. Refuted: a Go nil makes the process panic (reflection on a nil interface); an empty dictionary becomes a row with the column _value, and a list of dictionaries inside a list becomes a row itself, where iterating gives the empty dictionary and a _value row.

* `WrapProps.v`: `C74_argument_rows_partial`, `C74_query_argument`, `C74_same_as_iterating_partial`, `C74_nil_panics_refuted`, `C74_differs_from_iterating_refuted`

### C75 Descriptions of types are finite and complete — partial

Proved for all types: describing ends; earlier descriptions stay; a new type is described by exactly the exported fields (with those of embedded structs) and methods that pass the filter by members; what a pointer, slice, array or map leads to is described; a pointer to a struct shows all its own fields and methods; its arguments carry the names callers use when the tags are plain. Refuted: a field that holds a struct by value names a type that is not described; the types referred to are filtered by the members of the outer type; fields of embedded structs are left out; a struct first met behind a slice of pointers is described without fields for good; an array behind a pointer is called 5]int; a tag such as field=foo-bar is cut to foo; untagged fields are listed as arguments.

* `IntrospectProps.v`: `C75_ends`, `C75_earlier_kept`, `C75_described`, `C75_targets_described_partial`, `C75_new_descriptions`, `C75_names`, `C75_own_attributes`, `C75_argument_names_partial`, `C75_struct_value_refuted`, `C75_nested_filtered_refuted`, `C75_order_refuted`, `C75_embedded_refuted`, `C75_array_name_refuted`, `C75_argument_name_refuted`, `C75_untagged_refuted`

### C76 + joins lists — partial

Proved for all lists and values when the left operand is not NULL, and for two queries, also as operands of an expression. Refuted: a query and a value that is no list give NULL; NULL on the left wipes out the list while NULL on the right is appended.

* `JoinProps.v`: `C76_join`, `C76_associative`, `C76_empty`, `C76_queries`, `C76_query_and_value_refuted`, `C76_null_left_refuted`

### C77 Suggestions for a missing plugin — proved

For every order of the walks, given the contract of Go's sort (sort_contract, satisfied by insertion_sort). C77_empty_word: a name that starts or ends with an underscore suggests every plugin.

* `CatalogueProps.v`: `C77_suggestions`, `C77_same_every_time`, `C77_empty_word`, `C77_message`, `C77_version`

### C78 Counters of a scope — partial

Proved: the counts under any schedule; each number of a snapshot is what its counter was at some moment while the snapshot was taken; exact when nothing is added meanwhile; monotone below 2^64. Refuted: the numbers need not belong to one moment, because the five counters are loaded one after the other.

* `CatalogueProps.v`: `C78_counts`, `C78_snapshot`, `C78_quiet_snapshot`, `C78_later_snapshot`, `C78_not_one_moment_refuted`

### C79 EXPLAIN only reports — partial

Proved for every session, whichever of its queries (nested ones too) are explained: same outcome, same state, same effects in the same order, messages in between, unless the explainer reads a row that is a list, a query or a row of lazy columns; a session without the keyword is not explained and a keyword ends with its statement; for effect-free queries over rows that are data the messages are exactly one start and one pair for each row. Refuted: reading a list that holds a query runs that query, an effect that only EXPLAIN has; GROUP BY reports no row at all; a percent sign in WHERE spoils the message about a rejected row, because its text is used as a format. Not modelled: the messages about parsed arguments, EXPLAIN written inside of a query or of LET x =.

* `ExplainProps.v`: `C79_explaining_changes_nothing_partial`, `C79_session_partial`, `C79_without_the_keyword`, `C79_ends_with_the_statement`, `C79_each_row_is_reported`, `C79_explaining_runs_a_query_refuted`, `C79_grouped_rows_not_reported_refuted`, `C79_reason_is_kept`, `C79_reason_is_spoilt_refuted`

### C80 An aggregate that several workers call counts every call once — partial

Proved for a node that was called before: under every schedule the calls are those of some serial order (C80_counted_once_partial; count, sum and enumerate spelled out), for one goroutine from the first call on (C80_one_goroutine), and for the calls of every single function copy without any assumption (C80_each_function_is_exact). The full statement is false of the code: callFunction reads the cached function and stores a new one under two separate locks, so that first calls that overlap count in different places; both return 1 (C80_first_calls_lost_refuted), and a worker that is delayed there makes the count start again after any number of rows (C80_count_starts_again_refuted).

* `SharedCallsProps.v`: `C80_each_function_is_exact`, `C80_later_calls_share_a_function`, `C80_counted_once_partial`, `C80_count_partial`, `C80_sum_partial`, `C80_enumerate_partial`, `C80_one_goroutine`, `C80_first_calls_lost_refuted`, `C80_count_starts_again_refuted`

### C81 A row handed out as a dictionary is complete and materialised — partial

Proved: the columns and their order, that each column of a row is evaluated and kept by the row, that data stays as it is without any effect, and that no value of the dictionary or of the lists in it is unevaluated or a query. False inside of nested dictionaries, which RowToDict returns unchanged: a query in the rows of a query is still a query (C81_nested_query_refuted). Values inside of ten lists become NULL (C69). Not modelled: values of the host that are functions, Memberer or Go maps.

* `RowDictProps.v`: `C81_materialised_partial`, `C81_fields_of_a_dictionary`, `C81_columns_of_a_row`, `C81_data_is_kept`, `C81_nested_query_refuted`

### C82 A lazy column or argument read by several workers is evaluated once — partial

Proved: once a value is kept and nobody is on the way, it is what everybody gets and nothing is evaluated any more (C82_kept_partial); every value handed out is the result of some evaluation (C82_result_of_an_evaluation), hence for an expression that always yields the same everybody gets it (C82_steady_expression_partial); one goroutine evaluates once (C82_one_goroutine). The full statement is false of the code, which looks into the cache and stores into it under no common lock: two readers evaluate twice and get different values, and the value of the row changes afterwards (C82_evaluated_twice_refuted); n readers may evaluate n times (C82_evaluated_by_all_refuted); an argument that yields nil is evaluated at every read (C82_nil_again_refuted).

* `LazySharedProps.v`: `C82_kept_partial`, `C82_result_of_an_evaluation`, `C82_steady_expression_partial`, `C82_one_goroutine`, `C82_evaluated_twice_refuted`, `C82_evaluated_by_all_refuted`, `C82_nil_again_refuted`

### C83 Wrong arguments of a definition are reported — partial

Proved for FROM Q(...) of a query with parameters: extra arguments are reported exactly; missing ones are reported, all of them, exactly when there are more of them than extra ones; so all messages are exact when every argument is a parameter, defaults included (C83_reported_partial). The full statement is false of the code: as many extra arguments as missing ones hide what is missing (C83_extra_hides_missing_refuted); a definition without parameters and calls inside of expressions or of expressions are not checked at all; the query default of a parameter in backquotes is reported as an extra argument of a call without arguments (C83_quoted_default_refuted).

* `CallCheckProps.v`: `C83_extra_arguments_are_reported`, `C83_missing_arguments_partial`, `C83_reported_partial`, `C83_extra_hides_missing_refuted`, `C83_no_parameters_refuted`, `C83_functions_are_not_checked_refuted`, `C83_quoted_default_refuted`

### C84 Calls do not block each other for ever — partial

Proved for every number of goroutines, calls and every schedule: no schedule goes on for ever, every one can be continued until all calls have returned, and when nobody can go on all have returned, provided that code of the host that is called back under a lock takes none of the locks named in may_take's complement; calls without callbacks always qualify (C84_own_calls_are_polite). The full statement is false of the code, whose mutexes are held while code of the host runs: an Info method that logs, members read by PrintVars that use the scope, a comparison that evaluates an aggregate of the same query and a lazy attribute that reads itself block for ever (C84_callback_refuted); two lazy attributes that read each other block two goroutines (C84_crossing_attributes_refuted). Only the mutexes are modelled, not channels (see C36-C41) nor the locks inside of libraries.

* `LocksProps.v`: `C84_no_deadlock_partial`, `C84_all_calls_return_partial`, `C84_own_calls_are_polite`, `C84_callback_refuted`, `C84_crossing_attributes_refuted`

### C85 Tokens are those of the published lexical rules — proved

The table of vfilter.go:149-178 is copied as text into LexRules.v, which gives the syntax of its patterns and the order in which Go's regexp prefers matches; the scanner that the other theorems use is proved to cut every text as the table does. (?i) folds ASCII letters only.

* `LexRulesProps.v`: `C85_tokens_are_those_of_the_table`, `C85_rejected_by_the_table`, `C85_one_way`

### C86 Texts accepted are those of the grammar in the source — proved

The tags are copied verbatim; what they mean is participle's documentation and source, which is not in the repository.

* `GrammarTextProps.v`: `C86_parse`, `C86_multi_parse`, `C86_multi_parse_with_comments`, `C86_one_reading`, `C86_every_script_is_read`, `C86_grammar_is_complete`

### C87 The text of a lambda denotes its parameters and body — partial

Shape, order of the parameters, acceptance by the tags and the same body as in a query are proved for texts without comments. False for the operator IN in mixed case (C87_spelling_of_in_refuted): the parser of lambdas does not write IN in capitals, so iN is always false in a lambda. Comments in lambdas are not modelled.

* `LambdaTextProps.v`: `C87_shape`, `C87_some_parameter`, `C87_same_expression`, `C87_lambda_grammar`, `C87_spelling_of_in_refuted`

### C88 Settings of a scope — partial

Proved for every history: sorter, grouper, materializer and loggers, the throttler, the aggregator contexts; the explainer as long as nobody calls ClearContext. The statement is false of the code for the explainer: ClearContext builds a dispatcher without it, so EXPLAIN is silent afterwards (C88_clear_context_loses_the_explainer, C88_explainer_refuted).

* `SettingsProps.v`: `C88_settings_partial`, `C88_throttler`, `C88_explained_partial`, `C88_not_explained`, `C88_aggregator`, `C88_aggregator_exists`, `C88_new_scopes_count_apart`, `C88_clear_context_loses_the_explainer`, `C88_explainer_refuted`

### C89 The tree of a query is what the tags capture — proved

The captures (keeps, fills) and the tree of a struct (make, tree_of) are a specification of their own in GrammarTree.v: the tags copied from the source, read as participle reads them. Comments are left out before these parsers see the tokens; C72 and C86 treat the parser that keeps them.

* `GrammarTreeProps.v`: `C89_parse`, `C89_multi_parse`, `C89_one_tree`, `C89_accepted_is_filled`

### C90 Scopes shared between goroutines have no data races — partial

Goroutines reach a data race under some schedule exactly when two of them make calls that access a place, one writing, with no lock in common (C90_race_iff). Hence no schedule races as long as the calls only use the settings of scopes (C90_running_partial), nor when registrations meet only calls that take the dispatcher's lock (C90_setting_up_partial). The statement as a whole is false of the code: GetFunction, GetPlugin, NewScope and the operators look up without the lock that registrations take, SetLogger and SetTracer write without it, ClearContext replaces the dispatcher under the reader, and dispatchers share maps under different locks afterwards (C90_settings_race, C90_clear_context_races, C90_shared_maps_race, C90_unlocked_fields_race, C90_shared_freely_refuted). Memory behind the values themselves (rows, plugins, query nodes) is not modelled.

* `DataRacesProps.v`: `C90_race_iff`, `C90_running_partial`, `C90_setting_up_partial`, `C90_settings_race`, `C90_clear_context_races`, `C90_shared_maps_race`, `C90_unlocked_fields_race`, `C90_shared_freely_refuted`

### C91 A query used as a value is read and released — partial

Proved for every schedule: the answers (C91_truth, C91_index, C91_column, C91_sum, C91_list), that every use ends with one (C91_no_endless_use, C91_answered_in_the_end), and that lists, columns and sums leave no goroutine, indexing none unless an ORDER BY stands below a chain(). The last part is false of the code for truth values: a query with a second row is always left behind, blocked until the caller is cancelled (C91_truth_leaves_goroutines is exact, C91_truth_abandons_refuted), and for indexing into a chain() of an ORDER BY (C91_index_abandons_refuted). A cancelled caller may see the value of only a part of the rows (C91_cancelled_answer_refuted); indexing, columns and sums do not notice the cancellation and read on.

* `QueryValueProps.v`: `C91_truth`, `C91_list`, `C91_index`, `C91_column`, `C91_sum`, `C91_no_endless_use`, `C91_answered_in_the_end`, `C91_list_leaves_nothing`, `C91_column_leaves_nothing`, `C91_sum_leaves_nothing`, `C91_index_leaves_nothing_partial`, `C91_truth_leaves_goroutines`, `C91_truth_cancelled_partial`, `C91_truth_abandons_refuted`, `C91_index_abandons_refuted`, `C91_cancelled_answer_refuted`

### C92 No query crashes the process of the host — partial

Proved for every script without three constructs: enumerate() without items (or with its arguments in a `**` dict), a star column with a name (`* AS x`), and a multiplication whose first factor is not a number by its syntax (a literal, a comparison or NOT); for any host that does not panic itself and hands no Go nil to the library; for statements (C92_no_panic_partial), lambdas (C92_lambda_partial), texts (C92_text_partial) and whole sessions (C92_history_partial), with the invariant that no nil appears anywhere in rows, scopes, lazy rows, caches and aggregates. Each exclusion is needed for the first two and for multiplication of strings: C92_refuted, C92_named_star_refuted, C92_multiplication_refuted are scripts of built-ins alone that end the process; C92_host_nil_refuted shows the condition on the host is needed. Missing: multiplications with a variable in front that happens not to be a string; panics of Go's runtime outside of the model (stack and memory exhaustion).

* `NoPanicProps.v`: `C92_no_panic_partial`, `C92_lambda_partial`, `C92_history_partial`, `C92_text_partial`, `C92_refuted`, `C92_multiplication_refuted`, `C92_named_star_refuted`, `C92_host_nil_refuted`

### C93 Rewriting a query by the usual laws does not change its rows — partial

Proved for the queries of C14's fragment (C93_where_in_two_steps_partial, C93_equivalent_conditions_partial, C93_and_commutes_partial, C93_or_commutes_partial, C93_and_over_or_partial, C93_and_brackets_partial, C93_de_morgan_partial, C93_not_or_partial, C93_double_negation_partial, C93_condition_after_columns_partial, C93_select_over_chain_partial, C93_limit_of_limit_partial, C93_star_of_a_query_partial; with foreach() and if(): C93_foreach_of_foreach_partial, C93_foreach_over_chain_partial, C93_foreach_where_partial, C93_select_over_foreach_partial, C93_select_over_if_partial; C93_unused_variables_partial: a query depends on the variables it mentions only), each group with cases that meet the hypotheses. C93_hidden_column_refuted: a condition on a column that is not selected holds inside of the query but not outside. C93_foreach_capture_refuted: nested foreach() may be regrouped only if the last query does not look at columns of the outermost rows. Missing: GROUP BY, stored queries and functions with effects; rows with Go nils in the laws that ask for no_nils.

* `Laws2Props.v`: `C93_unused_variables_partial`, `C93_foreach_of_foreach_partial`, `C93_foreach_over_chain_partial`, `C93_select_over_if_partial`, `C93_foreach_where_partial`, `C93_select_over_foreach_partial`, `C93_or_commutes_partial`, `C93_and_over_or_partial`, `C93_not_or_partial`, `C93_and_brackets_partial`, `C93_foreach_capture_refuted`
* `LawsProps.v`: `C93_star_of_a_query_partial`, `C93_where_in_two_steps_partial`, `C93_equivalent_conditions_partial`, `C93_and_commutes_partial`, `C93_de_morgan_partial`, `C93_double_negation_partial`, `C93_condition_after_columns_partial`, `C93_limit_of_limit_partial`, `C93_select_over_chain_partial`, `C93_hidden_column_refuted`

### C94 GROUP BY totals do not depend on the order of the rows and add up — proved

C94_order_of_rows, C94_counts_add_up, C94_sums_add_up, each with a case of two tables in different orders. The limits of the statement are sharp: C94_other_column_refuted (a column that is not determined by the key depends on the order) and C94_mixed_items_refuted (sum and max depend on the order when one item is no number).

* `GroupLawsProps.v`: `C94_order_of_rows`, `C94_counts_add_up`, `C94_sums_add_up`, `C94_other_column_refuted`, `C94_mixed_items_refuted`

### C95 A query runs ahead of its reader by at most one row per goroutine — proved

C95_look_ahead, C95_rows_taken, C95_all_before_first, with executions that meet the hypotheses (one in which all goroutines hold a row). flatten() and chain() are left out of the first two: flatten() holds all the rows of one row. The restriction to a live context is needed: C95_stops_when_cancelled_refuted.

* `LookaheadProps.v`: `C95_look_ahead`, `C95_rows_taken`, `C95_all_before_first`, `C95_stops_when_cancelled_refuted`

### C96 The rows of a query do not depend on how its goroutines are scheduled — proved

C96_every_schedule and C96_every_schedule_group_by, with C96_demo (chain, flatten, ORDER BY, LIMIT) and C96_group_demo. They connect the one-threaded evaluator of Eval.v (C14, C17) with the goroutines of Pipeline.v (C39). C96_cancelled: a query without GROUP BY, ORDER BY and LIMIT that is cancelled at any time delivers a subsequence of these rows (not always a prefix: C39_prefix_refuted). In the trees foreach() is one goroutine that sends its rows; C96_foreach_workers says that its own goroutines (Foreach.v, C36) deliver these rows, in order with one worker and in some order with more.

* `SchedProps.v`: `C96_every_schedule`, `C96_every_schedule_group_by`, `C96_cancelled`, `C96_foreach_workers`

### C97 The results a host receives for the text of a query are its rows — proved

C97_text_to_results and C97_results_so_far, composed from C14, C39, C41 and C96, with C97_demo (a text with chain(), range(), WHERE, ORDER BY and LIMIT). The rows of the fragment are dictionaries of data, for which the conversion RowToDict is the identity (C81).

* `EndProps.v`: `C97_text_to_results`, `C97_results_so_far`

### C98 WHERE comes before GROUP BY, and tables without common groups may be grouped apart — proved

C98_where_before_groups and C98_tables_without_common_groups, for the columns of C17, with C98_where_demo and C98_tables_demo. The proviso is needed: C98_renamed_column_refuted (`SELECT n + 1 AS n, count() FROM t WHERE n GROUP BY k`: the condition is about the column, not about the field of the row).

* `GroupSplitProps.v`: `C98_where_before_groups`, `C98_tables_without_common_groups`, `C98_renamed_column_refuted`

### C99 A script of assignments and queries has the results that its statements mean one after the other — proved

C99_script_means and C99_text_to_results, with C99_demo (a table assigned, a variable computed from it, two queries). C99_last_query_groups (with C99_group_demo): the last query may have GROUP BY and aggregates as in C17. C99_lazy_assignment_refuted: with `LET x = y` the variable is the expression and sees what is assigned later (C22), so the law is about `<=` only.

* `ScriptProps.v`: `C99_script_means`, `C99_text_to_results`, `C99_last_query_groups`, `C99_lazy_assignment_refuted`

### C100 Laws of scripts: unused assignments, their order, and queries written in place — proved

C100_unused_assignment, C100_replaced_assignment, C100_exchange_assignments and C100_inline_query, anywhere in a script (statements before and after), with C100_unused_demo, C100_replaced_demo, C100_exchange_demo and C100_inline_demo. The first three also for scripts whose queries group, order and limit (C100_unused_assignment_group, C100_replaced_assignment_group, C100_exchange_assignments_group, each with a demo). C100_mentioned_variable_refuted: the variable must not be mentioned elsewhere in the query.

* `ScriptGroupLawsProps.v`: `C100_unused_assignment_group`, `C100_replaced_assignment_group`, `C100_exchange_assignments_group`
* `ScriptLawsProps.v`: `C100_unused_assignment`, `C100_replaced_assignment`, `C100_exchange_assignments`, `C100_inline_query`, `C100_mentioned_variable_refuted`

### C101 Scripts may group, order and limit anywhere — proved

C101_script_does, C101_text_to_results (from the text to the parts that are sent, under every schedule) and C101_one_meaning, with C101_demo and C101_text_demo (a grouped and ordered query is assigned, read, and grouped again with LIMIT). C101_having with C101_having_demo: SELECT * FROM the assigned groups WHERE w keeps exactly the groups for which w holds, in order (rows whose fields are not nil). C101_order_and_limit_later with C101_later_demo: ORDER BY and LIMIT give the same rows in the grouping query and in SELECT * over its assigned result.

* `ScriptGroupProps.v`: `C101_script_does`, `C101_text_to_results`, `C101_one_meaning`
* `ScriptHavingProps.v`: `C101_having`, `C101_order_and_limit_later`

## Other observations about the code

Found while transcribing; not stated as properties.

* The project's own test of marshalling (`marshal/marshal_test.go`) evaluates
  the check query in the scope that was saved, not in the restored one, so it
  would pass whatever is restored.
* `1 * x[0]` is a parse error: a factor of a product takes an index only on its
  left operand (`vfilter.go:911-920`).
* `a < b < c` is accepted and means `a < c`: the middle operand is parsed and
  dropped (`C61_chained_comparison_refuted`). `NOT a = b` is `NOT (a = b)`, and
  what follows a NOT's operand on the same level is dropped.
* The goroutine of `GetResponseChannel` blocks for ever when the consumer stops
  receiving (`api.go:64` sends without a select).
* Marshalling a materialised query gives rows that come back as Go maps: the
  order of columns is lost.
* The visitor's `copy` and `merge` do not carry Comments, so comments inside
  calls and columns are not collected.
* `types.CopyFunction` for functions without a Copy method makes a zero value
  by reflection: state set before registration is lost.
* A comment inside a column swallows code when the script is reformatted.
  The first layout `abTest` tries sets BreakLines to false, so `-- note` is
  followed by a space and not by a line break; `is_better` never looks at
  `has_comments`. `SELECT a +\n -- note\n b AS X, c FROM d()` becomes
  `SELECT a + -- note b AS X,\n c FROM d()`, which parses as `SELECT a + c`.
  (`C72_comment_swallows_code_refuted`.)
* ReFormatVQL refuses a script with two comments below a statement that ends
  in `GROUP BY a, b`: the grammar tries another term of the list, which takes
  both comments and then fails beyond the lookahead of one token.
  (`C72_valid_script_refused_refuted`.)
* Spaces at the end of a comment count for the width of the statement below
  it, and are trimmed afterwards, so a second pass lays the statement out
  differently. (`C72_comment_spaces_settle_refuted`.)
* An integer plus a float32 ignores the float32: `intAdd` has a case for
  float32 but `utils.ToFloat` has none, and the error is dropped.
  `3 + float32(0.5)` is 3. (`C73_float32_dropped_refuted`.)
* `+` with a uint64 above 2^63 on the left converts it to a negative int64
  first; with the float on the left it does not.
  (`C73_large_unsigned_refuted`.) A uint or boolean on the left of a float
  gives NULL. (`C73_left_operand_refuted`.)
* `StoredQueryWrapper.Eval` calls `slice.Type()` on `reflect.ValueOf(nil)`, which
  panics in a goroutine without recover: a Go nil given for a query argument
  ends the process. (`C74_nil_panics_refuted`.)
* `TypeMap.addType` hands the members of the outermost value down to every type
  it meets, so the fields of referred-to types are left out unless the outer
  type has a member of the same name. (`C75_nested_filtered_refuted`.) The
  fields of embedded structs are not among the members and are left out too.
  (`C75_embedded_refuted`.)
* `canonicalTypeName` maps `T` and `*T` to one name: a field `[]*T` describes the
  pointer type, which has no fields, and `T` is never described afterwards.
  (`C75_order_refuted`.) It turns `[5]int` into `5]int`.
  (`C75_array_name_refuted`.)
* `query + value` is NULL although `list + value` appends the value, and
  `NULL + list` is NULL although `list + NULL` appends NULL.
  (`C76_query_and_value_refuted`, `C76_null_left_refuted`.)
* A snapshot of the counters of a scope may show numbers that the counters never
  had at the same time. (`C78_not_one_moment_refuted`.)
* An aggregate behind AND or OR (`n >= 2 && count()`) is evaluated only for the
  rows whose left side does not decide: its count is not the size of the group
  (`C19_aggregate_behind_and_refuted`).
* EXPLAIN reads every row that FROM delivers: if a row is a list that holds a
  query, the query runs, although the explained query never looks at it
  (`C79_explaining_runs_a_query_refuted`). EXPLAIN of a GROUP BY query reports no
  rows. `RejectRow` hands the text of the condition to `Log` as a format, so that
  `%s` in a condition comes out as `%!s(MISSING)`.
* The first calls of an aggregate race: `callFunction` reads the cached function
  and stores a new copy under two separate locks. Workers whose first calls
  overlap count in different places, and both return 1
  (`C80_first_calls_lost_refuted`); a worker that is delayed between the two locks
  replaces the function after any number of rows, and the count starts again
  (`C80_count_starts_again_refuted`).
* `RowToDict` leaves dictionaries inside of a row as they are: a query in a column
  of the rows of a query is still a query in the result
  (`C81_nested_query_refuted`).
* A lazy column or argument is looked up and stored without a common lock: readers
  that overlap all evaluate it and get different values
  (`C82_evaluated_twice_refuted`, `C82_evaluated_by_all_refuted`); an argument that
  yields nil is evaluated at every read (`C82_nil_again_refuted`).
* Missing arguments of a query are not reported when there are as many arguments that
  are no parameters (`C83_extra_hides_missing_refuted`); calls in expressions are not
  checked at all (`C83_functions_are_not_checked_refuted`); a call without arguments
  may be told that one is unrecognised (`C83_quoted_default_refuted`).
* Mutexes are held while code of the host runs: an `Info` method that logs a message,
  members read by `PrintVars` that use the scope, a comparison that evaluates an
  aggregate of the same query and a lazy attribute that reads itself block for ever
  (`C84_callback_refuted`); lazy attributes that read each other block two goroutines
  (`C84_crossing_attributes_refuted`).
* The parser of lambdas does not write IN in capitals, and the operator is looked up as
  IN, In or in: `x => x iN (1, 2)` is false for every x while `x iN (1, 2)` in a query is
  not (`C87_spelling_of_in_refuted`).
* ClearContext drops the explainer: WithNewContext copies every field of the dispatcher but
  `explainer`, so EXPLAIN reports nothing after it (`C88_clear_context_loses_the_explainer`).
* Registering functions, plugins or operators while another goroutine looks one up, or makes a new scope, is a
  data race, for maps a fatal one: lookups do not take the lock that registrations take (`C90_settings_race`).
* SetLogger and SetTracer write without a lock, ChargeOp and Marshal read without it (`C90_settings_race`,
  `C90_unlocked_fields_race`).
* After ClearContext two dispatchers share their maps under different locks, so that even two registrations
  race (`C90_shared_maps_race`).
* An aggregate right of AND/OR or in a branch of if() leaves out the rows of the group for which that side is not
  evaluated (`C17_aggregate_behind_and_refuted`, `C17_aggregate_in_if_refuted`).
* A query whose truth is asked (WHERE, AND, OR, if()) is neither read to the end nor cancelled: its goroutines
  stay blocked, one set for each evaluation, until the whole query is cancelled (`C91_truth_leaves_goroutines`).
* Indexing a query, reading a column of it and adding queries run it under context.Background(): cancelling the
  query that contains them does not stop them (`C91_index`, `C91_column`, `C91_sum` hold under any cancellation).
* Three scripts of built-ins alone end the process of the host (`C92_refuted`, `C92_multiplication_refuted`,
  `C92_named_star_refuted`): ``SELECT len(list=enumerate()[0]) AS X FROM scope()`` (the nil that enumerate() keeps
  is assigned by reflection), ``SELECT '' * -1 AS X FROM scope()`` (strings.Repeat with a negative count passes the
  memory check when the string is empty) and ``LET R = SELECT 1 AS A, * AS list FROM scope()`` followed by
  ``SELECT len(`**`=R[0]) AS X FROM scope()`` (a star with a name is a column with the value nil).
* WHERE of a query sees columns of the source that are not selected, so moving a condition outside of a selection
  can lose rows without any error (`C93_hidden_column_refuted`).
* In nested foreach() the last query sees the columns of all rows around it, so regrouping foreach() changes results
  where it mentions a column of the outermost rows that the rows between do not have (`C93_foreach_capture_refuted`).
* sum() and max() of the same items give different results for different orders of the rows as soon as one item is
  NULL or no number (`C94_mixed_items_refuted`).
* After cancellation the loop of SELECT may take every remaining row of its plugin and deliver none: an abandoned send
  returns to the loop, not from it (`C95_stops_when_cancelled_refuted`).
