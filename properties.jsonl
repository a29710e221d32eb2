{"id": "C01", "title": "Comparison operators are coherent on like-typed scalars", "statement": "For two integers, two strings, or two non-NaN floats, exactly one of a<b, a=b, a>b holds; a<=b, a>=b and a!=b are exactly (a<b or a=b), (a>b or a=b) and not (a=b); < is a strict total order on each of these kinds.", "quantifier": "all pairs/triples of int64 values, all pairs/triples of byte strings, all pairs/triples of non-NaN float64 values", "why_tests_cant": "The operand space is 2^128 pairs for integers alone; totality and transitivity are statements over all triples.", "anchors": ["protocols/protocol_lt.go:LtDispatcher.Lt", "protocols/protocol_gt.go:GtDispatcher.Gt", "protocols/protocol_eq.go:EqDispatcher.Eq", "vfilter.go:_ConditionOperand.Reduce"]}
{"id": "C02", "title": "a > b is the converse of b < a", "statement": "Whatever the types of the two operands, a > b gives the same answer as b < a, and a > b and a < b are never both true.", "quantifier": "all pairs of VQL values", "why_tests_cant": "The comparison dispatcher has one branch per pair of dynamic types; a table of examples cannot cover all type pairs and values.", "anchors": ["protocols/protocol_lt.go:LtDispatcher.Lt", "protocols/protocol_gt.go:GtDispatcher.Gt"]}
{"id": "C03", "title": "Equality is an equivalence relation", "statement": "= is reflexive, symmetric and transitive, so that GROUP-like logic, IN and != agree regardless of operand order.", "quantifier": "all VQL values, pairs and triples, including nested arrays and dicts", "why_tests_cant": "Quantifies over all nested values; symmetric/transitive failures hide in mixed-type pairs.", "anchors": ["protocols/protocol_eq.go:EqDispatcher.Eq", "protocols/ordereddict.go:_DictEq", "utils/utils.go:ToInt64"]}
{"id": "C04", "title": "NULL behaves as an absorbing, incomparable value", "statement": "NULL is falsy, is never < or > anything, is equal only to NULL, and +, -, *, / with NULL on the left (and -, *, / with NULL on the right) yield NULL; evaluating with NULL never panics.", "quantifier": "all VQL values on the other side of the operator", "why_tests_cant": "Every operator has its own nil handling order; all operand types must be covered on both sides.", "anchors": ["protocols/protocol_add.go", "protocols/protocol_sub.go", "protocols/protocol_mul.go", "protocols/protocol_div.go", "protocols/protocol_bool.go", "protocols/protocol_lt.go", "types/null.go:IsNil"]}
{"id": "C05", "title": "Integer arithmetic is exact modulo 2^64", "statement": "On integers +, - and * compute the two's complement int64 result, so chains of + and - may be reordered and (x+y)-y = x for every x and y, including across overflow; / on integers yields a float or NULL, never a crash.", "quantifier": "all int64 operands and all finite chains of additions/subtractions", "why_tests_cant": "Overflow behaviour needs all 2^64 values per operand.", "anchors": ["protocols/protocol_add.go:AddDispatcher.Add", "protocols/protocol_sub.go:SubDispatcher.Sub", "protocols/protocol_mul.go:MulDispatcher.Mul", "vfilter.go:_AdditionExpression.Reduce"]}
{"id": "C06", "title": "Division by zero yields NULL, and only division by zero does", "statement": "For numeric operands a / b is NULL exactly when b is zero; otherwise it is the floating point quotient.", "quantifier": "all pairs of numeric values (integers and floats)", "why_tests_cant": "The zero test is written per type branch; a test with the usual 1/0 does not cover the float branches.", "anchors": ["protocols/protocol_div.go:DivDispatcher.Div"]}
{"id": "C07", "title": "String building operators are memory bounded and never panic", "statement": "s + t and s * n yield either NULL or a string of at most 100,000,000 bytes which is the concatenation / n-fold repetition of the operands; no operand makes the process panic.", "quantifier": "all byte strings and all int64 counts", "why_tests_cant": "The guard is computed with wrapping 64-bit multiplication; the failing operands are astronomically rare.", "anchors": ["protocols/protocol_add.go", "protocols/protocol_mul.go:MulDispatcher.Mul"]}
{"id": "C08", "title": "Truthiness of WHERE/AND/OR operands", "statement": "Every value has exactly one truth value: NULL, FALSE, numbers <= 0, empty strings, empty arrays, empty dicts and queries with no rows are false; TRUE, positive numbers, non-empty strings, arrays, dicts and queries with at least one row are true.", "quantifier": "all VQL values", "why_tests_cant": "The classification must be total over an unbounded value domain.", "anchors": ["protocols/protocol_bool.go:BoolDispatcher.Bool"]}
{"id": "C09", "title": "AND/OR/NOT short circuit and compute boolean connectives", "statement": "A chain t1 AND ... AND tn evaluates operands left to right, stops at the first falsy operand and is truthy iff all operands are truthy; dually for OR; operands after the deciding one are not evaluated at all (none of their side effects happen).", "quantifier": "all expression chains of any length, all environments, all effectful operands", "why_tests_cant": "Chain length and operand effects are unbounded; laziness is about what does not happen.", "anchors": ["vfilter.go:_AndExpression.Reduce", "vfilter.go:_OrExpression.Reduce", "vfilter.go:_ConditionOperand.Reduce"]}
{"id": "C10", "title": "Indexing and slicing are total with clamping semantics", "statement": "x[i] on arrays and strings returns the i-th element for 0<=i<len, counts from the end for -len<=i<0 and is NULL otherwise; x[i:j] is the contiguous sub-sequence after clamping, empty when the range is empty; no index or range panics.", "quantifier": "all strings/arrays and all int64 indexes and optional range ends", "why_tests_cant": "Boundary arithmetic over 64-bit indexes and all lengths.", "anchors": ["protocols/protocol_associative.go", "protocols/utils.go:getRanges", "vfilter.go:_MemberExpression.Reduce"]}
{"id": "C11", "title": "IN means membership", "statement": "a IN b is true iff b is an array with an element equal (=) to a, or a string containing the string a as a substring, or a dict having the key a; nothing is IN NULL.", "quantifier": "all VQL values a and b", "why_tests_cant": "Unbounded containers and element types.", "anchors": ["protocols/protocol_membership.go:MembershipDispatcher.Membership"]}
{"id": "C12", "title": "The not-equal operators agree", "statement": "a <> b and a != b are accepted by the grammar and both are the negation of a = b.", "quantifier": "all pairs of values", "why_tests_cant": "Must hold for every pair; a single passing pair is no evidence.", "anchors": ["vfilter.go:_OpComparison", "vfilter.go:_ConditionOperand.Reduce"]}
{"id": "C13", "title": "A negated symbol always denotes the negation", "statement": "Evaluating -x in a scope binding x to a number yields minus that number, every time the same query is evaluated and for every row.", "quantifier": "all bindings, all evaluation histories of the same parsed query", "why_tests_cant": "The answer depends on how many times the node was evaluated before: a property of histories.", "anchors": ["vfilter.go:_SymbolRef.getFunction", "vfilter.go:_SymbolRef.maybeNegate"]}
{"id": "C14", "title": "SELECT ... WHERE is filter and projection in order", "statement": "A SELECT without GROUP/ORDER/LIMIT emits, for each input row in input order, exactly one output row if WHERE is absent or truthy for that row and none otherwise; the output row has the selected columns with the values of the column expressions and subqueries evaluated with the row in scope (a subquery with one row shows as that row, with several as their list; a row with one column shows as its value); nothing is duplicated, lost or reordered.", "quantifier": "all row sequences of any length and all column/WHERE expressions", "why_tests_cant": "Unbounded row sequences and arbitrary expressions.", "anchors": ["vfilter.go:_Select.Eval", "vfilter.go:_Select.processSingleRow", "vfilter.go:_SelectExpression.Transform", "lazy.go:MaterializedLazyRow"]}
{"id": "C15", "title": "LIMIT n keeps exactly the first n rows", "statement": "For n >= 1, LIMIT n emits the first min(n, N) rows that the same query would emit without LIMIT, in the same order; LIMIT 0 emits no rows.", "quantifier": "all queries/row sequences and all n", "why_tests_cant": "Boundary behaviour for every n and N.", "anchors": ["vfilter.go:_Select.Eval"]}
{"id": "C16", "title": "ORDER BY sorts without losing rows", "statement": "ORDER BY emits a permutation of the rows of the unordered query; with a column of integers or strings (NULLs first) the output is non-decreasing (non-increasing with DESC).", "quantifier": "all row multisets and key columns, all sizes", "why_tests_cant": "Sortedness and permutation over all lengths.", "anchors": ["sort/sort.go", "vfilter.go:_Select.Eval", "protocols/protocol_lt.go"]}
{"id": "C17", "title": "GROUP BY emits one row per group in first-seen order", "statement": "Rows that pass WHERE are partitioned by the printed group key; one row is emitted per distinct key, in order of first appearance, carrying the columns evaluated on the last row of the group with aggregates accumulated over exactly the rows of that group.", "quantifier": "all row sequences, group expressions and aggregate columns", "why_tests_cant": "Unbounded number of rows and groups; interference between groups is a global property.", "anchors": ["vfilter_group.go", "grouper/grouper.go", "aggregators/aggregators.go"]}
{"id": "C18", "title": "GROUP BY separates rows with different keys", "statement": "Two rows fall in the same group iff their group-by expressions are equal, including GROUP BY with several columns.", "quantifier": "all pairs of rows", "why_tests_cant": "Key collision is a property over all pairs of key values.", "anchors": ["grouper/grouper.go", "types/string.go:ToString", "vfilter_group.go"]}
{"id": "C19", "title": "Aggregate functions equal a fold over their group", "statement": "count() is the number of rows, sum() the int64 sum, min()/max() the least/greatest item, enumerate() the list of items, each over precisely the rows of the current group/query, independent of other groups and other call sites.", "quantifier": "all row sequences and all interleavings of several aggregate call sites and contexts", "why_tests_cant": "State is shared through contexts; absence of interference needs all interleavings.", "anchors": ["functions/aggregates.go", "aggregators/aggregators.go", "scope/aggregators.go"]}
{"id": "C20", "title": "SELECT * preserves every column and explicit columns win", "statement": "SELECT *, e AS X keeps every column of the input row in order and X overrides a same-named input column; SELECT e AS X, * never overrides X and appends the remaining input columns.", "quantifier": "all rows and column lists", "why_tests_cant": "All rows and all name collisions.", "anchors": ["vfilter.go:_SelectExpression.Transform", "vfilter.go:_SelectExpression.mergeStarRow", "lazy.go"]}
{"id": "C21", "title": "Column expressions are lazy and memoised", "statement": "A column expression is evaluated at most once per row when accessed repeatedly, is not evaluated for rows WHERE rejects unless WHERE refers to it, and exactly once for emitted rows.", "quantifier": "all access sequences on a row and all queries", "why_tests_cant": "Counts evaluations over every access history.", "anchors": ["lazy.go:LazyRowImpl", "vfilter.go:_Select.processSingleRow"]}
{"id": "C22", "title": "LET = is lazy, LET <= is materialised once", "statement": "LET X = e evaluates nothing until X is referenced and re-evaluates at every reference in the referrer's scope; LET X <= e evaluates e exactly once at definition and every later reference sees the same value; LET statements emit no rows.", "quantifier": "all expressions, all subsequent queries", "why_tests_cant": "Quantifies over all future references.", "anchors": ["vfilter.go:VQL.Eval", "stored.go", "materializer/in_memory.go"]}
{"id": "C23", "title": "Calling a LET function binds parameters hygienically", "statement": "F(a=v) evaluates the body with a bound to v, parameters shadow outer variables, arguments are evaluated in the caller's scope and after the call the caller's variables are unchanged.", "quantifier": "all definitions, call sites and scopes", "why_tests_cant": "All scopes and nesting of calls.", "anchors": ["vfilter.go:_SymbolRef.Reduce", "stored.go", "scope/scope.go:Scope.Copy"]}
{"id": "C24", "title": "Default parameters apply exactly to missing arguments", "statement": "When calling a LET function with default parameters, an argument that is passed is used as is and its default is not evaluated; an argument that is not passed takes its default.", "quantifier": "all parameter lists, defaults and argument subsets", "why_tests_cant": "All subsets of arguments and quoting forms of names.", "anchors": ["stored.go:applyDefaults", "types/defaults.go:MaybeApplyDefaultArgs", "vfilter.go:VQL.getParameters"]}
{"id": "C25", "title": "Recursive definitions cannot hang or crash the evaluator", "statement": "Every query evaluation terminates: recursion through LET expressions, functions and stored queries is cut off at a fixed stack depth and yields NULL / no rows.", "quantifier": "all sets of (mutually recursive) LET definitions and all queries", "why_tests_cant": "Termination for all programs.", "anchors": ["scope/scope.go:Scope.CheckForOverflow", "vfilter.go:_SymbolRef.Reduce", "stored.go"]}
{"id": "C26", "title": "Child scopes never leak variables", "statement": "Variables appended to a scope are visible in it and in copies made later, and never in its parent, siblings or copies made earlier.", "quantifier": "all trees of scopes and all interleaved sequences of Copy/AppendVars", "why_tests_cant": "All histories of operations.", "anchors": ["scope/scope.go:Scope.Copy", "scope/scope.go:Scope.AppendVars"]}
{"id": "C27", "title": "Name resolution is innermost-first", "statement": "Resolve returns the value from the most recently appended row that has the name; otherwise the default value offered by the innermost row that offers one, otherwise not found; a scope 1000 copies deep resolves nothing.", "quantifier": "all stacks of rows and all names", "why_tests_cant": "All stacks.", "anchors": ["scope/scope.go:Scope.Resolve", "scope/scope.go:Scope._ResolveVars"]}
{"id": "C28", "title": "Destructors run exactly once, children first, last-in first-out", "statement": "Closing a scope runs every destructor registered on it and on its live descendants exactly once, descendants before ancestors and in reverse registration order within a scope; closing again runs nothing.", "quantifier": "all scope trees, destructor registrations and Close sequences", "why_tests_cant": "All histories; exactly-once is a safety property over traces.", "anchors": ["scope/scope.go:Scope.Close", "scope/scope.go:Scope.AddDestructor", "scope/scope.go:_destructors"]}
{"id": "C29", "title": "A destructor accepted by a scope is eventually run by Close", "statement": "If AddDestructor returns no error, then once Close has completed the destructor has been run, whatever the interleaving of AddDestructor and Close.", "quantifier": "all interleavings of concurrent AddDestructor and Close calls", "why_tests_cant": "Depends on the thread schedule.", "anchors": ["scope/scope.go:Scope.AddDestructor", "scope/scope.go:Scope.Close"]}
{"id": "C30", "title": "A parent never forgets a live child", "statement": "A scope's Close closes every child made by Copy that has not itself been closed, despite the lazy garbage collection of the children list.", "quantifier": "all sequences of Copy/Close on a scope and its children", "why_tests_cant": "Garbage collection triggers depend on the history.", "anchors": ["scope/scope.go:Scope.Copy", "scope/scope.go:Scope.Close"]}
{"id": "C31", "title": "Scopes built from a scope have isolated registries", "statement": "Functions, plugins and protocol implementations registered on a scope obtained by NewScope() are never visible in the original and vice versa after the copy; ClearContext()/SetContext changes are confined likewise.", "quantifier": "all sequences of registrations", "why_tests_cant": "All histories.", "anchors": ["scope/scope.go:Scope.NewScope", "scope/dispatcher.go"]}
{"id": "C32", "title": "Protocol dispatch: most recent applicable implementation wins", "statement": "For operand types not built in, the result of an operator comes from the most recently registered applicable implementation, or the default (NULL/false) if none is applicable.", "quantifier": "all lists of registered implementations and operands", "why_tests_cant": "All registration orders.", "anchors": ["protocols/protocol_add.go", "protocols/protocol_eq.go", "scope/dispatcher.go"]}
{"id": "C33", "title": "range() enumerates the arithmetic progression", "statement": "range(start, end, step) emits start, start+step, ... strictly below end (above for negative step), in order, and terminates.", "quantifier": "all int64 start/end/step", "why_tests_cant": "All 64-bit triples including overflow.", "anchors": ["plugins/range.go"]}
{"id": "C34", "title": "chain() concatenates its queries", "statement": "chain(a=q1, b=q2, ...) emits all rows of q1 in order, then q2, and so on, and nothing else.", "quantifier": "all argument lists and row sequences", "why_tests_cant": "Unbounded sequences.", "anchors": ["plugins/chain.go"]}
{"id": "C35", "title": "flatten() is the cartesian expansion of array cells", "statement": "For each input row flatten() emits exactly one row per combination of array-cell members, other columns unchanged; the number of rows is the product of the cell lengths (empty cells counting one).", "quantifier": "all rows with any number of columns and cell lengths", "why_tests_cant": "Unbounded columns and lengths.", "anchors": ["plugins/flatten.go"]}
{"id": "C36", "title": "foreach() runs the query exactly once per row under every schedule", "statement": "With any positive number of workers, every row of `row` is handed to exactly one worker and the rows emitted are a permutation (an interleaving, in order per row) of the concatenation of the per-row results; with one worker the order is preserved; without cancellation the pool terminates.", "quantifier": "all numbers of workers, row sequences and interleavings", "why_tests_cant": "Depends on the schedule.", "anchors": ["plugins/foreach.go"]}
{"id": "C37", "title": "Cancelling foreach() always unblocks it", "statement": "After the context is cancelled every goroutine of foreach() terminates and the output channel is closed, whatever the schedule.", "quantifier": "all schedules and cancellation points", "why_tests_cant": "Depends on the schedule and the cancellation point.", "anchors": ["plugins/foreach.go"]}
{"id": "C38", "title": "if() evaluates only the selected branch", "statement": "if(condition, then, else) evaluates the condition once and then only the selected branch; the other branch's effects never happen, and without else an unselected branch gives NULL, or no rows from the plugin.", "quantifier": "all conditions and branches", "why_tests_cant": "Absence of effects for all programs.", "anchors": ["functions/if.go", "plugins/if.go"]}
{"id": "C39", "title": "Streaming pipeline delivers exactly the rows, in order, and closes once", "statement": "A chain of evaluation stages (plugin, FROM, SELECT, VQL.Eval) connected by unbuffered channels delivers to the reader a prefix of the expected row sequence under every schedule, the whole sequence if not cancelled, and every output channel is closed exactly once with no send after close.", "quantifier": "all numbers of stages, rows, schedules and cancellation points", "why_tests_cant": "Depends on the schedule.", "anchors": ["vfilter.go:VQL.Eval", "vfilter.go:_Select.Eval", "vfilter.go:_From.Eval"]}
{"id": "C40", "title": "Cancelled ORDER BY queries release their goroutines", "statement": "After cancellation of a query with ORDER BY, all of its goroutines terminate.", "quantifier": "all schedules and cancellation points", "why_tests_cant": "Depends on the schedule.", "anchors": ["vfilter.go:_Select.Eval", "sort/sort.go"]}
{"id": "C41", "title": "Response batching loses and reorders nothing", "statement": "GetResponseChannel emits payloads whose rows, concatenated in part order, are exactly the query's rows in order; parts are numbered consecutively from 0, no payload has more than maxrows rows, TotalRows counts its rows, and a final payload is always sent.", "quantifier": "all row sequences, all maxrows, all timer firings", "why_tests_cant": "Timer firings and sequence lengths are unbounded.", "anchors": ["api.go:GetResponseChannel"]}
{"id": "C42", "title": "String literals denote their unescaped contents", "statement": "Any byte string can be written as a VQL literal (by escaping quotes and backslashes) and evaluates back to exactly that string; unquoting never panics and never lengthens its input.", "quantifier": "all byte strings", "why_tests_cant": "All strings.", "anchors": ["utils/unquote.go:Unquote"]}
{"id": "C43", "title": "Quoted and dotted identifiers are split faithfully", "statement": "Splitting a.`b.c`.d on dots outside backticks yields the components without backticks; joining then splitting is the identity for all component lists; quoting an identifier in backticks is undone.", "quantifier": "all component lists", "why_tests_cant": "All strings and lists.", "anchors": ["utils/unquote.go:SplitIdent", "utils/unquote.go:Unquote_ident"]}
{"id": "C44", "title": "Token positions are exact", "statement": "Every token reported by the tokenizer spans the text it was scanned from: end offset = start offset + byte length, and line/column advance correctly across newlines.", "quantifier": "all token texts and start positions", "why_tests_cant": "All texts, including multi-byte and multi-line ones.", "anchors": ["tokenizer.go:findEndPos"]}
{"id": "C45", "title": "Reporting a parse error never crashes", "statement": "For every expression and every reported error position inside it, building the error message succeeds and quotes the text around the position.", "quantifier": "all expressions and positions", "why_tests_cant": "Slice bounds arithmetic over all lengths/positions.", "anchors": ["vfilter.go:reportError"]}
{"id": "C46", "title": "Multi-statement parsing preserves statements and comments", "statement": "GetStatements returns the statements in source order and attaches every comment to a statement exactly once, a comment between statements to the one that follows it.", "quantifier": "all statement lists with any number of comments", "why_tests_cant": "All nestings.", "anchors": ["vfilter.go:MultiVQL.GetStatements"]}
{"id": "C47", "title": "Argument extraction is all or nothing on names", "statement": "Extracting arguments succeeds only if every required field is supplied, every supplied name is a declared field, and every value coerces; on success each supplied field holds its coerced value and no other field changes.", "quantifier": "all field declarations and argument dictionaries", "why_tests_cant": "All declarations and dictionaries.", "anchors": ["arg_parser/parser.go:Parser.Parse", "arg_parser/parser.go:Parser.ParseAsFreeForm", "arg_parser/args.go"]}
{"id": "C48", "title": "A list argument has one string per element", "statement": "Passing an array where a list of strings is expected yields exactly one string per element.", "quantifier": "all arrays", "why_tests_cant": "All arrays and element types.", "anchors": ["arg_parser/args.go:_ExtractStringArray"]}
{"id": "C49", "title": "Formatting a query and parsing it back gives the same query", "statement": "FormatToString of a parsed expression parses back to the same expression (same operators, operands and grouping).", "quantifier": "all expression trees the parser can produce", "why_tests_cant": "Unbounded tree depth.", "anchors": ["visitor.go", "vfilter.go"]}
{"id": "C50", "title": "Serialised scopes restore the same definitions", "statement": "Marshalling a scope and unmarshalling it gives a scope in which every marshalled variable has an equal value and every stored function has the same body, parameters and defaults.", "quantifier": "all scopes and definitions", "why_tests_cant": "All scopes.", "anchors": ["marshal.go", "scope/marshal.go", "marshal/marshaller.go", "marshal/unmarshal.go"]}
{"id": "C51", "title": "Regular expression matching is unaffected by the cache", "statement": "a =~ b gives the same answer whatever was matched before, compiles each pattern at most once per context and logs a bad pattern at most once.", "quantifier": "all histories of matches", "why_tests_cant": "All histories.", "anchors": ["protocols/protocol_regex.go"]}
{"id": "C52", "title": "Any value can be iterated as rows", "statement": "Iterating a dict yields itself, an array yields one row per non-NULL element in order (dict elements as they are, others wrapped as {_value: v}), a scalar one wrapped row and NULL none.", "quantifier": "all values", "why_tests_cant": "All nested values.", "anchors": ["protocols/protocol_iterate.go"]}
{"id": "C53", "title": "Lambdas check their arity", "statement": "Calling a lambda with the wrong number of arguments yields NULL; with the right number it evaluates its body with exactly those parameters bound.", "quantifier": "all lambdas and argument lists", "why_tests_cant": "All arities.", "anchors": ["lambda.go:Lambda.Reduce"]}
{"id": "C54", "title": "Lazy expressions are evaluated at most once", "statement": "However many times a lazily passed argument is accessed, its expression is evaluated at most once provided it yields a value, and every access returns that value.", "quantifier": "all access histories", "why_tests_cant": "All histories.", "anchors": ["lazy.go:LazyExprImpl"]}
{"id": "C55", "title": "Materialisation preserves rows", "statement": "Materialising a stored query yields exactly its rows in order; iterating, indexing or filtering the materialised value sees the same rows every time.", "quantifier": "all queries", "why_tests_cant": "Unbounded rows.", "anchors": ["materializer/in_memory.go", "types/stored_query.go"]}
{"id": "C56", "title": "Throttler never blocks an unthrottled query and closes idempotently", "statement": "A throttler with rate 0 or above 100 never sleeps; Close may be called any number of times.", "quantifier": "all rates and call histories", "why_tests_cant": "All histories.", "anchors": ["throttle.go"]}
{"id": "C57", "title": "The outline lists calls faithfully", "statement": "Every function entry of a statement outline corresponds to a call occurring in the statement, in source order, once per call.", "quantifier": "all statements", "why_tests_cant": "Unbounded trees.", "anchors": ["outline.go"]}
{"id": "C58", "title": "Escape sequences in string literals denote their characters", "statement": "Inside a quoted string literal \\n, \\r and \\t denote newline, carriage return and tab, \\xHH with two hexadecimal digits denotes the byte HH, a backslash before any other byte denotes that byte, and every other byte denotes itself; a malformed \\x escape is copied unchanged.", "quantifier": "all string literals", "why_tests_cant": "Unbounded sequences of escapes and plain bytes.", "anchors": ["utils/unquote.go:Unquote, decode_hex"]}
{"id": "C59", "title": "Parsing decides every text", "statement": "For every text Parse and MultiParse end with a statement or an error: the answer does not depend on any bound on nesting, and a text is rejected only for a reason in the text (a token that fits no rule, or input left over).", "quantifier": "all texts, of any length and nesting", "why_tests_cant": "Unbounded texts and nesting.", "anchors": ["vfilter.go:Parse, MultiParse"]}
{"id": "C60", "title": "Formatting settles", "statement": "Formatting a parsed statement, parsing the result and formatting again gives the same text as formatting once.", "quantifier": "all statements", "why_tests_cant": "Unbounded trees.", "anchors": ["marshal.go:FormatToString", "visitor.go:Visitor.Visit"]}
{"id": "C61", "title": "Call sites list every reference exactly once", "statement": "The call sites a visitor collects from a list of statements are the function calls, plugin calls and symbol references written in them, each once and in the order written, and there is one definition per LET with its parameters in order.", "quantifier": "all lists of statements", "why_tests_cant": "Unbounded trees; a call lost or doubled in one construct is invisible in tests of the others.", "anchors": ["visitor.go:Visitor.Visit, CallSites, Definitions"]}
{"id": "C62", "title": "Reformatting keeps every statement", "statement": "For every script and every formatting option, the text ReFormatVQL returns parses into the same statements in the same order, whatever the line breaks and indentation chosen; reformatting that text again with the same options returns it unchanged, and none of its lines ends in a space.", "quantifier": "all scripts of any number of statements, all widths and indent thresholds", "why_tests_cant": "Unbounded scripts and every width: each line break is a choice between layouts that depends on everything written so far.", "anchors": ["reformat/visitor.go:ReFormatVQL", "visitor.go:Visitor.Visit, abTest, line_break, new_line"]}
{"id": "C63", "title": "A number literal means the number written", "statement": "A decimal or hexadecimal integer literal in a query denotes exactly the integer its digits spell, and a literal with a point or an exponent denotes the float64 nearest to the decimal number written (ties to even); a literal beyond the range of its type is an error rather than another number.", "quantifier": "all number literals, of any length", "why_tests_cant": "Unbounded digit strings: correct rounding fails, when it does, on rare literals near the middle of two floats.", "anchors": ["vfilter.go:_Value.maybeParseStrNumber"]}
{"id": "C64", "title": "Formatting does not change what a query yields", "statement": "For every statement, the text FormatToString returns, parsed and evaluated in the same scope, yields the same rows with the same column names and leaves the same variables defined; so does a script reformatted with any options, and a LET restored from its saved form.", "quantifier": "all statements and scripts that parse, all formatting options, all environments and scopes", "why_tests_cant": "Unbounded programs in any host environment: a single construct whose printed form means something else is enough.", "anchors": ["marshal.go:FormatToString", "reformat/visitor.go:ReFormatVQL", "vfilter.go:VQL.Eval, MultiParse"]}
{"id": "C65", "title": "get() follows a path", "statement": "get(item=X, member=\"a.b.c\") yields what X.a.b.c yields, NULL when a step is missing; without an item the path starts at the variables in scope.", "quantifier": "all values, all member paths, all scopes", "why_tests_cant": "Any depth and any mixture of lists, dictionaries and queries along the path.", "anchors": ["functions/functions.go:_GetFunction.Call"]}
{"id": "C66", "title": "split() cuts a text at its separator", "statement": "split(string=X, sep_string=S), for a text X and a separator S that is not empty, yields the pieces of X cut at each occurrence of S from the left: joined with S they give X back, no piece contains S, and they are the only such list whose pieces end at the first separator. With an empty separator the result is NULL.", "quantifier": "all texts and separators", "why_tests_cant": "Unbounded texts; overlapping and adjacent separators and those at the ends are where a cut goes wrong.", "anchors": ["functions/functions.go:_SplitFunction.Call"]}
{"id": "C67", "title": "timestamp() yields the instant its number denotes", "statement": "timestamp(epoch=n) is the instant n seconds after the start of 1970 and timestamp(winfiletime=w) the instant w units of 100 nanoseconds after the start of 1601; two timestamps compare as the numbers they were made from.", "quantifier": "all int64 numbers", "why_tests_cant": "2^64 numbers each: conversions fail at the ends of their range, around zero and for negative numbers.", "anchors": ["functions/functions.go:_Timestamp.Call", "protocols/protocol_lt.go:LtDispatcher.Lt"]}
{"id": "C68", "title": "encode(type=\"hex\") writes every byte", "statement": "encode(string=X, type=\"hex\"), for a text X, yields a text of twice as many bytes, two hexadecimal digits for each byte, from which X can be read back; different texts have different encodings.", "quantifier": "all texts", "why_tests_cant": "Unbounded texts with arbitrary bytes, valid UTF-8 or not.", "anchors": ["functions/functions.go:_EncodeFunction.Call"]}
{"id": "C69", "title": "dict() gives its values back", "statement": "dict(a=X, b=Y).a is the value of X: a dictionary holds exactly the values it was built from, whatever their shape.", "quantifier": "all values, any number of members", "why_tests_cant": "Values nest without bound, and the constructor rewrites them on the way.", "anchors": ["functions/functions.go:_DictFunc.Call", "utils/dict/dict.go:RowToDict, normalize_value"]}
{"id": "C70", "title": "Members of a host object can be read", "statement": "For a Go struct given to a query, every name it reports as a member (what SELECT * shows) can be read with obj.name and gives the exported field of that name, or the first result of the method of that name; a field can also be read under the name of its JSON tag; any other name is reported as missing.", "quantifier": "all structs with embedded structs to any depth, tags and methods", "why_tests_cant": "Fields, tags, embedding and methods combine without bound, and which of several candidates is found is decided by a search.", "anchors": ["protocols/protocol_associative.go:DefaultAssociative.Associative, DefaultAssociative.GetMembers, FieldMatchName", "utils/utils.go:IsExported, IsCallable"]}
{"id": "C71", "title": "A lazy attribute is computed once", "statement": "A value read through NewLazyStructWrapper is not computed before it is needed; however many goroutines need it and in whatever order, its getter is called at most once and all of them see the same value. Only the attributes listed are shown.", "quantifier": "all schedules of any number of readers, all getters", "why_tests_cant": "Interleavings cannot be enumerated by tests.", "anchors": ["protocols/lazy_wrapper.go:LazyWrapper.Associative, LazyFunctionWrapper.Reduce, LazyFunctionWrapper.ReduceWithScope"]}
{"id": "C72", "title": "Comments survive reformatting", "statement": "ReFormatVQL accepts every script that MultiParse accepts, with comments anywhere; the text it returns has the same comments in the same order, and a comment never changes, hides or drops a piece of the script.", "quantifier": "all scripts, with any comments in any places, all formatting options", "why_tests_cant": "Comments may stand between any two tokens of a script of any size; fixtures cover a few places.", "anchors": ["reformat/visitor.go:ReFormatVQL", "vfilter.go:MultiParseWithComments, _Comment", "visitor.go:Visitor.visitComment"]}
{"id": "C73", "title": "Arithmetic on floats is correctly rounded", "statement": "When one operand of +, - or * is a float, and for every /, the result is the float nearest to the exact result for the two operands (ties go to the even mantissa), or infinite when that is beyond the largest float. An integer counts as the float nearest to it; in particular an exactly representable result is returned exactly.", "quantifier": "all pairs of numbers of any type, all floats, with infinities and NaN", "why_tests_cant": "2^128 pairs; rounding goes wrong at ties, at subnormal numbers and at the overflow threshold.", "anchors": ["protocols/protocol_add.go:AddDispatcher.Add, intAdd", "protocols/protocol_sub.go:SubDispatcher.Sub", "protocols/protocol_mul.go:MulDispatcher.Mul", "protocols/protocol_div.go:DivDispatcher.Div", "utils/utils.go:ToFloat"]}
{"id": "C74", "title": "A value given for a query stands for rows", "statement": "Where a plugin or function takes a query, any value may be given: a list stands for one row for each element that is not NULL, NULL for no rows, and any other value for one row; a value without columns becomes a row with the column _value. The rows are those that iterating the value gives.", "quantifier": "all values, all scopes and states", "why_tests_cant": "Values nest without bound, and two separate pieces of code turn values into rows.", "anchors": ["arg_parser/args.go:ToStoredQuery, StoredQueryWrapper.Eval, StoredQueryWrapper.toRow", "protocols/protocol_iterate.go:IterateDispatcher.Iterate"]}
{"id": "C75", "title": "Descriptions of types are finite and complete", "statement": "Describing the type of a value for documentation (Scope.Describe, TypeMap.AddType) ends for every Go type, also for types that refer to themselves or to each other; the description lists every exported field, also of embedded structs, and every method that queries can read, and nothing else; a plugin's arguments are listed under the names callers use; every type referred to is described too; what is described does not depend on what was described before, and earlier descriptions stay.", "quantifier": "all Go types and programs, all sets of types described before", "why_tests_cant": "Types refer to each other in cycles of any shape; tests describe a few structs.", "anchors": ["types/introspection.go:TypeMap.AddType, addType, addFields, addMethods, canonicalTypeName", "protocols/protocol_associative.go:DefaultAssociative.GetMembers", "arg_parser/parser.go:BuildParser"]}
{"id": "C76", "title": "+ joins lists", "statement": "If one operand of + is a list, or both are queries, the result is a list: the elements of the left operand, then those of the right; a query counts as the list of its rows and any other value as one element. Joining is associative and the empty list is neutral; the operands are not changed and each query runs once, the left one first.", "quantifier": "all lists, queries and other values, in both positions", "why_tests_cant": "Lists and rows nest without bound, and several cases of the dispatcher come before the one that joins.", "anchors": ["protocols/protocol_add.go:AddDispatcher.Add, convertToSlice", "protocols/stored_query.go:_StoredQueryAdd.Add, MaterializeToArray"]}
{"id": "C77", "title": "Suggestions for a missing plugin", "statement": "When a query names a plugin that is not registered, the message lists exactly the registered plugins whose names contain one of the words of that name (the parts between underscores; an empty part is contained in every name), in order and each once, the same every time; it mentions a function exactly if one has that name. version() gives the version of a registered plugin or function and NULL for any other name.", "quantifier": "all registries, all names and all orders in which a Go map may be walked over", "why_tests_cant": "The order of a walk over a Go map is random and differs between the walks of one call.", "anchors": ["scope/dispatcher.go:GetSimilarPlugins", "vfilter.go:Plugin.Eval", "scope/version.go:_GetVersion.Call"]}
{"id": "C78", "title": "Counters of a scope", "statement": "Under any schedule of any number of goroutines a counter of a scope is the sum of what was added to it modulo 2^64; a snapshot shows, for all counters, what they were at one moment while it was taken, and a later snapshot shows no smaller numbers.", "quantifier": "all schedules of additions and snapshots, any number of goroutines", "why_tests_cant": "The interleavings of the five loads with other goroutines are unbounded.", "anchors": ["types/stats.go:Stats", "types/stats.go:Stats.Snapshot"]}
{"id": "C79", "title": "EXPLAIN only reports", "statement": "A query with EXPLAIN yields the same rows as without it, with the same effects in the same order; it only adds messages to the log: besides those about the arguments of calls, one at the start, then for each row that FROM delivers, in order, the row and whether the query emitted it, and as what, or which condition rejected it. Statements without EXPLAIN are not explained, also when one before was.", "quantifier": "all queries and sessions, all scopes, states and registries", "why_tests_cant": "Explaining reads every row and must not disturb any of them, whatever the query and the host's functions do.", "anchors": ["vfilter.go:_Select.Eval, processSingleRow", "explain/logging_explainer.go:LoggingExplainer", "scope/scope.go:Scope.EnableExplain, Scope.Explainer", "scope/dispatcher.go:Log"]}
{"id": "C80", "title": "An aggregate that several workers call counts every call once", "statement": "When several workers evaluate one aggregate of a query at the same time, as foreach() with workers does, every evaluation is counted exactly once: what the calls return, and what is kept in the end, is what the same calls give one after the other in some order. So n calls of count() return n different consecutive numbers, sum() ends with the sum of all items and enumerate() has every item once.", "quantifier": "every number of workers and calls, every schedule of them, every kind of aggregate, every item and every aggregation context", "why_tests_cant": "the loss needs two workers to be between two particular instructions of the first call; whether a test run meets this schedule is chance", "anchors": ["vfilter.go:_SymbolRef.callFunction", "aggregators/aggregators.go:AggregatorCtx.Modify", "functions/aggregates.go:_CountFunction.Call", "functions/aggregates.go:_SumFunction.Call", "functions/aggregates.go:_EnumerateFunction.Call", "functions/aggregates.go:NewAggregator"]}
{"id": "C81", "title": "A row handed out as a dictionary is complete and materialised", "statement": "RowToDict, through which GetResponseChannel encodes every row, returns a dictionary with the columns of the row in their order; every column is evaluated, once; no value in the dictionary is an expression still to be evaluated or a query, queries are replaced by their rows; and a dictionary of data is returned as it is.", "quantifier": "every row, every scope, every environment of the host and every state of the evaluation", "why_tests_cant": "columns may hold anything an expression can return: expressions, queries, lists of these to any depth; tests see a few shapes", "anchors": ["utils/dict/dict.go:RowToDict", "utils/dict/dict.go:normalize_value", "types/stored_query.go:Materialize", "lazy.go:LazyRowImpl.Get", "aliases.go:RowToDict"]}
{"id": "C82", "title": "A lazy column or argument read by several workers is evaluated once", "statement": "A column of a row, or an expression passed lazily as an argument, that several workers read at the same time (foreach() with workers shares the rows and arguments around it) is evaluated at most once, and every reader gets that value, now and later.", "quantifier": "every number of workers and reads, every schedule of them, every expression whatever its evaluations yield", "why_tests_cant": "two workers must look for the value before either stores it; whether a test run meets this schedule is chance", "anchors": ["lazy.go:LazyRowImpl.Get", "lazy.go:LazyExprImpl.Reduce", "plugins/foreach.go:_ForeachPluginImpl.Call"]}
{"id": "C83", "title": "Wrong arguments of a definition are reported", "statement": "When a definition made by LET with parameters is called, one message is logged for each argument that is no parameter and one for each parameter that has neither an argument nor a default, and no other; the defaults of the definition are never reported.", "quantifier": "every list of parameters and defaults, every list of arguments, every place of the call", "why_tests_cant": "the check compares two lists of any length and stops early when their lengths agree; tests have a few short ones", "anchors": ["stored.go:_StoredQuery.checkCallingArgs", "stored.go:_StoredQuery.Call", "stored.go:applyDefaults", "vfilter.go:Plugin.evalSymbolWithArgs", "vfilter.go:_SymbolRef.Reduce", "vfilter.go:VQL.getParameterNames"]}
{"id": "C84", "title": "Calls do not block each other for ever", "statement": "Whatever calls any number of goroutines make at the same time on scopes, their children and parents, aggregates, queries that are evaluated or formatted, and lazy attributes, also from inside of code of the host that these calls call back (Info, members, comparisons, methods behind lazy attributes): under every schedule all calls return, none waits for ever for a lock.", "quantifier": "every number of goroutines and calls, every tree of scopes and of queries, every schedule, every code of the host", "why_tests_cant": "a deadlock needs two goroutines to be inside of two particular calls at once; the number of schedules is exponential and a test sees a few", "anchors": ["scope/scope.go:Scope.GetAggregatorCtx, Scope.AddDestructor, Scope.Close, Scope.Explainer, Scope.PrintVars", "scope/dispatcher.go:protocolDispatcher", "aggregators/aggregators.go:AggregatorCtx.Modify", "visitor.go:Visitor.visitAliasedExpression, Visitor.visitSymbolRef, Visitor.visitValue", "vfilter.go:_Value.Reduce, _SymbolRef.getFunction", "protocols/lazy_wrapper.go:LazyFunctionWrapper.Reduce", "arg_parser/cache.go:GetParser"]}
{"id": "C85", "title": "Tokens are those of the published lexical rules", "statement": "A text is cut into tokens by the table of rules alone: at each place the first rule of the table whose pattern matches there gives the token, with the match that Go's regexp prefers; white space is dropped; a text is rejected exactly when at some place no rule matches; and there is only one way to cut a text.", "quantifier": "every text (of bytes; U+017F, which (?i) folds to S, aside)", "why_tests_cant": "texts are unboundedly many, patterns backtrack and rules overlap; a test tries a few texts", "anchors": ["vfilter.go:vqlLexer"]}
{"id": "C86", "title": "Texts accepted are those of the grammar in the source", "statement": "Parse, MultiParse and MultiParseWithComments accept a text exactly when the grammar written in the struct tags of the source, read by participle's rules (ordered alternatives, optional and repeated groups, one token of lookahead), reads all of its tokens. Every text is read in exactly one way.", "quantifier": "every text", "why_tests_cant": "A test parses one text; the grammar has unboundedly many, and a text can be refused because an earlier alternative failed two tokens in.", "anchors": ["vfilter.go:325-394 MultiVQL, VQL", "vfilter.go:583-597 _Select", "vfilter.go:772-825", "vfilter.go:899-1048", "vfilter.go:192-209 vqlParser"]}
{"id": "C87", "title": "The text of a lambda denotes its parameters and body", "statement": "ParseLambda accepts p1, ..., pn => body exactly when n is at least 1, the parameters are names with commas between them and body is an expression; the parameters of the lambda are those names as written, in order, and its body is the expression that the same text is in a query.", "quantifier": "every text without comments", "why_tests_cant": "Parameter lists and bodies of any length; the grammar is recursive to the right and keeps only the last of a repeated capture.", "anchors": ["lambda.go:11-39 Lambda, GetParameters", "lambda.go:59-61 ParseLambda", "vfilter.go:385-394 _ParameterList", "vfilter.go:1562-1599 Reduce"]}
{"id": "C88", "title": "Settings of a scope", "statement": "The sorter, grouper, materializer, explainer and loggers that a scope uses are the ones last set on it or on a scope that shares them: a copy shares with the scope it was made from, a scope made by NewScope starts with what its origin has and then goes its own way, and ClearContext changes no setting. A throttler belongs to its scope and to scopes made from it afterwards. Only scopes on which EXPLAIN was enabled, and copies made afterwards, report to the explainer. An aggregate counts in the context given to its scope, or else in that of the scope it is a copy of; scopes that are not copies of each other count apart.", "quantifier": "every sequence of calls on any number of scopes", "why_tests_cant": "Which scope sees a setting depends on the whole history of copies, new scopes and cleared contexts.", "anchors": ["scope/scope.go:115-171 SetLogger, SetAggregatorCtx, GetAggregatorCtx, SetTracer, NewScope", "scope/scope.go:181-190 ClearContext", "scope/scope.go:343-384 Copy", "scope/scope.go:600-631 SetSorter, SetGrouper, SetMaterializer, SetExplainer, EnableExplain, Explainer", "scope/dispatcher.go:141-206 WithNewContext, Copy"]}
{"id": "C89", "title": "The tree of a query is what the tags capture", "statement": "Parse and MultiParse return, for a text that the grammar accepts, exactly the tree in which every field of every struct holds what its tag captured from the tokens: fields of type slice hold every capture in order, fields that hold one struct the last one, string fields the joined texts, and nothing that an abandoned alternative read stays in the tree. There is one such tree for a text.", "quantifier": "every text", "why_tests_cant": "Which tokens end up in which field depends on the nesting, on the alternatives tried before and on everything to the left in the text; no list of example queries covers that.", "anchors": ["vfilter.go:192-209 parsers", "vfilter.go:281-307 Parse, MultiParse", "vfilter.go:325-383 MultiVQL, VQL, LetParameter", "vfilter.go:583-597 _Select", "vfilter.go:772-825 _From, Plugin, _Args, _SelectExpression, _AliasedExpression", "vfilter.go:899-1048 expressions"]}
{"id": "C90", "title": "Scopes shared between goroutines have no data races", "statement": "Several goroutines may call the methods of one scope, of its copies and of scopes made from it at the same time: no two of them ever access the same memory at once with one of them writing, whatever the schedule.", "quantifier": "every family of scopes, every number of goroutines, every list of calls each of them makes and every schedule", "why_tests_cant": "A race detector only sees the schedules that a test happens to run; a clash between two calls may need one particular interleaving.", "anchors": ["scope/scope.go:85-647 Scope", "scope/dispatcher.go:21-331 protocolDispatcher", "scope/marshal.go:19-54 Marshal", "scope/version.go:41-59 Call"]}
{"id": "C91", "title": "A query used as a value is read and released", "statement": "When an expression asks a query for its truth value, its n-th row, one of its columns or all of its rows (also as operand of +), the answer is the one that the rows of the query determine, whatever the schedule; an answer is always reached; and afterwards no goroutine of the query is left.", "quantifier": "every query built from plugins, SELECT (WHERE, GROUP BY, ORDER BY, LIMIT), LET, flatten() and chain(), every use of it, every schedule of its goroutines and every moment at which the caller is cancelled", "why_tests_cant": "A goroutine that is left behind shows in no result, and whether one is left depends on how far it had come when the reader stopped.", "anchors": ["protocols/stored_query.go:17-112 Associative, Bool, Add, MaterializeToArray", "protocols/protocol_associative.go:69-78 Associative", "types/stored_query.go:14-33 Materialize", "vfilter.go:861-897 _AliasedExpression.Reduce"]}
{"id": "C92", "title": "No query crashes the process of the host", "statement": "Whatever statements and lambdas are evaluated, one after the other, in whatever scope, the evaluation does not panic: a panic would be in a goroutine that the library starts, where the host cannot recover from it.", "quantifier": "every script and lambda, every sequence of them in a session, every scope, every host whose own functions do not panic, every length of run", "why_tests_cant": "Panics come from combinations of values that no one thought of, such as the result of an aggregate that was called without an argument; tests only reach those that someone did think of.", "anchors": ["vfilter.go:415-528 VQL.Eval", "arg_parser/parser.go:60-98 Parse", "functions/functions.go:240-268 LenFunction.Call", "functions/aggregates.go:312-337 _EnumerateFunction.Call", "protocols/protocol_mul.go:25-82 Mul", "lazy.go:95-118 MaterializedLazyRow", "vfilter.go:864-896 _AliasedExpression.Reduce"]}
{"id": "C93", "title": "Rewriting a query by the usual laws does not change its rows", "statement": "Two queries that the usual laws of selection make equal yield the same rows in the same order: a condition a AND b in one query or in two nested ones; conditions that are true of the same rows (AND commutes, De Morgan, double negation); a condition on selected columns inside or outside of the selection; columns and condition over chain() or inside each of its queries; a LIMIT of a LIMIT; SELECT * from a query; foreach() over foreach(), over chain() and over a condition; columns and condition over foreach() or if(), or inside. A query depends on the variables it mentions only.", "quantifier": "every source, every list of columns, every condition, every ORDER BY and LIMIT, every depth of nesting, every scope and state of the session", "why_tests_cant": "Each law relates two programs, over all rows and conditions; lazy columns, lookups through nested scopes and nulls are where such rewrites break in practice, and a test compares two particular queries only.", "anchors": ["vfilter.go:604-716 _Select.Eval", "vfilter.go:1080-1140 _SelectExpression.Transform", "plugins/chain.go:21-60 _ChainPlugin.Call", "scope/scope.go Resolve"]}
{"id": "C94", "title": "GROUP BY totals do not depend on the order of the rows and add up", "statement": "For a GROUP BY query without a star whose columns are count(), sum(), min() or max() of 64 bit integers, or expressions that are the same for all rows with one key, two tables with the same rows in different orders give the same result rows up to order. The counts of the groups add up to the number of rows that pass WHERE, and the sums of the groups add up (as int64) to the sum over these rows.", "quantifier": "every table and every permutation of it, every effect-free condition, key and item expression, every scope and state of the session in which the calls of the query name library functions", "why_tests_cant": "A test can compare a few orders of a few tables; n rows have n! orders, and wrapped sums, keys that print alike and per-group contexts shared between calls only show for particular ones.", "anchors": ["vfilter_group.go:13-122 GroupbyActor, EvalGroupBy", "grouper/grouper.go:13-96 DefaultGrouper", "functions/aggregates.go"]}
{"id": "C95", "title": "A query runs ahead of its reader by at most one row per goroutine", "statement": "While the context is not cancelled, a query of SELECT, WHERE, LIMIT, stored queries and statements over a plugin takes rows from the plugin only as its reader takes results: the rows taken so far are worth the results delivered so far and at most one more result for each goroutine between plugin and reader. A query that filters nothing out has taken at most that many rows more than it delivered. With GROUP BY or ORDER BY, with or without LIMIT, nothing is delivered before the plugin has sent its last row.", "quantifier": "every query of these shapes nested to any depth, every table, every schedule of the goroutines and every point at which the reader pauses", "why_tests_cant": "A test sees one schedule and a reader that keeps reading; how many rows are in flight when the reader pauses depends on the schedule, and an unbounded buffer only shows with tables larger than the test's.", "anchors": ["vfilter.go:604-716 _Select.Eval", "vfilter.go:718-770 processSingleRow", "vfilter.go:1152-1172 _From.Eval", "stored.go:60-85 _StoredQuery.Eval", "plugins/range.go:19-50 Call", "sort/sort.go:25-58 Sort", "grouper/grouper.go:19-92 Group"]}
{"id": "C96", "title": "The rows of a query do not depend on how its goroutines are scheduled", "statement": "A query of SELECT, WHERE, ORDER BY, LIMIT or GROUP BY without side effects, over variables, range(), chain(), flatten(), if() and foreach() with subqueries nested to any depth, delivers, until its context is cancelled and under every schedule of the goroutines it starts, the rows that evaluating it step by step in one thread yields, in the same order; a reader that stops early has seen the first of them, every schedule ends, and at the end the channel is closed.", "quantifier": "every such query and nesting, every scope, every state of the session, every schedule of all its goroutines and every moment", "why_tests_cant": "Each SELECT starts two to five goroutines and a nested query dozens; a test sees one of their interleavings, and a row lost or overtaken on a rare one passes.", "anchors": ["vfilter.go:415-528 VQL.Eval", "vfilter.go:604-770 _Select.Eval, processSingleRow", "vfilter.go:1152-1346 _From.Eval, Plugin.Eval", "vfilter_group.go:84-122 EvalGroupBy", "plugins/chain.go:21-62", "plugins/flatten.go:16-55", "plugins/if.go:20-42", "sort/sort.go:25-58"]}
{"id": "C97", "title": "The results a host receives for the text of a query are its rows", "statement": "A host that hands the text of a query without side effects to the library and reads its results in parts gets, for every schedule of the goroutines, every firing of the timer and every part size of at least one row, parts numbered from 0 that together are exactly the rows that the query means, in order, none larger than asked for. If the host gives up early, or an encoder fails, the parts it was sent are those of the first rows.", "quantifier": "every text that parses to one query of the fragment of C14, every scope and state, every schedule of all goroutines including the one that cuts parts, every timer, part size and encoder that does not fail (first part), or any encoder and moment of giving up (second part)", "why_tests_cant": "The claim joins parser, evaluator, goroutines and batching; tests check one text under one schedule, and each of the four is only as good as its interface to the next.", "anchors": ["api.go:22-102 GetResponseChannel", "vfilter.go:294-307 MultiParse", "vfilter.go:415-528 VQL.Eval", "vfilter.go:604-770 _Select.Eval"]}
{"id": "C98", "title": "WHERE comes before GROUP BY, and tables without common groups may be grouped apart", "statement": "A query with WHERE and GROUP BY has exactly the results, in the same order, of the query without WHERE over the rows for which the condition holds, provided that no column of the query goes by a name that the condition uses. If no group has rows of both of two tables, then the results over one table followed by the other are those of the first table followed by those of the second.", "quantifier": "every table, list of columns with aggregates as in C17, condition, key expression, scope and state; every FROM clause that delivers the rows in question", "why_tests_cant": "The results of a group depend on all of its rows, on the order of the rows and on the state kept for each call of an aggregate; a test fixes one table, and the laws relate evaluations of different tables.", "anchors": ["vfilter_group.go:26-122 GetNextRow, EvalGroupBy", "grouper/grouper.go:15-96 Group", "vfilter.go:604-716 _Select.Eval", "functions/aggregates.go"]}
{"id": "C99", "title": "A script of assignments and queries has the results that its statements mean one after the other", "statement": "A text made of `LET x <= expression`, `LET x <= SELECT \u2026` and queries, all without side effects, evaluated by a host statement by statement in one scope: every statement sees exactly the values assigned before it, the newest first; an assigned query is a table of its rows; each query yields its rows, and a host that reads them in parts gets, for every schedule of the goroutines and every timer, exactly these rows in order. The scope is left with the assigned variables and nothing else of the evaluation can be observed.", "quantifier": "every text that parses to such statements (expressions and queries of the fragment of C14), of any length, every scope and state, every query in it, every schedule, timer, part size of at least one row and encoder that does not fail", "why_tests_cant": "The claim is over scripts of any length and all schedules of each of their queries; a test runs one script under one schedule.", "anchors": ["vfilter.go:294-307 MultiParse", "vfilter.go:415-528 VQL.Eval", "materializer/in_memory.go:98-104 Materialize", "scope/scope.go AppendVars", "api.go:22-102 GetResponseChannel"]}
{"id": "C100", "title": "Laws of scripts: unused assignments, their order, and queries written in place", "statement": "In a script of `LET x <= \u2026` and queries without side effects: an assignment to a variable that no later statement mentions may be left out, and so may one that the next statement replaces without using it; two neighbouring assignments neither of which mentions the variable of the other may be exchanged; and a query that is assigned and then used only as the table of the next query may be written in its place as `chain(a={ \u2026 })`. The results of all queries of the script stay the same.", "quantifier": "every script of the fragment of C99, of any length, every variable, scope and state", "why_tests_cant": "The laws relate the evaluations of two different scripts over all tables and expressions; tests compare two scripts on one table.", "anchors": ["vfilter.go:415-528 VQL.Eval", "scope/scope.go:395-405 AppendVars", "scope/scope.go Resolve", "materializer/in_memory.go:98-104 Materialize", "plugins/chain.go:25-66"]}
{"id": "C101", "title": "Scripts may group, order and limit anywhere", "statement": "In a script of `LET x <= \u2026` and queries, any query \u2013 run or assigned \u2013 may have GROUP BY with aggregates, ORDER BY and LIMIT: its rows are one per group, put in order by the sorter and cut to the limit. Later statements see the rows that were assigned, aggregates of one query do not leak into another one, and nothing else of the evaluation can be observed. A script has at most one meaning.", "quantifier": "every script of any length, every table, expressions and aggregates of C17, every state of earlier queries", "why_tests_cant": "Aggregates keep state between calls; that it never reaches another group, query or statement is a claim about all scripts and all tables.", "anchors": ["vfilter.go:415-528 VQL.Eval", "vfilter.go:604-715 _Select.Eval", "vfilter_group.go:84 EvalGroupBy", "grouper/", "sort/", "materializer/in_memory.go:98-104 Materialize", "aggregators/"]}
