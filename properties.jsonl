{"id": "C01", "title": "Parsing never crashes and always terminates", "statement": "syntax.Parse returns either a clause or an error for every input string; it never panics and never loops, whatever bytes the input contains.", "quantifier": "for all byte strings (including invalid UTF-8, NUL bytes, unterminated quotes and calls)", "why_tests_cant": "The claim ranges over infinitely many strings; tests sample a handful. Absence of panics and of infinite scanning loops cannot be observed by finitely many runs.", "anchors": ["syntax/parser.go: Parse", "syntax/scanner.go: scanPlain..scanFuncArgQuoted", "syntax/lexer.go: Next, Peek"]}
{"id": "C02", "title": "Text without special characters is passed through byte for byte", "statement": "A template containing none of the characters $ ? # ' \" ` and no NUL byte builds to exactly that text (up to the documented trimming of surrounding white space), with no arguments.", "quantifier": "for all byte strings free of the seven special bytes, every bind variable style", "why_tests_cant": "The claim ranges over infinitely many strings; tests sample a handful.", "anchors": ["syntax/scanner.go: scanPlain", "build.go: BuildFragment, buildClause"]}
{"id": "C03", "title": "Parsing is lossless", "statement": "If a template without NUL bytes parses, then the source text is exactly the concatenation of the source forms of the parsed expressions: no character is dropped, duplicated or reordered. (False when a NUL byte occurs: everything from the NUL on is silently discarded.)", "quantifier": "for all byte strings that parse successfully", "why_tests_cant": "The claim ranges over infinitely many strings; tests sample a handful. The truncation at NUL shows how a lossy corner hides from sampled tests.", "anchors": ["syntax/lexer.go: EOF, Next", "syntax/scanner.go", "syntax/parser.go: Parse"]}
{"id": "C04", "title": "Quoted text is inert", "statement": "Bind variables and # references inside '...', \"...\" or `...` in a template are not interpreted: the quoted text appears verbatim in the query and consumes no argument.", "quantifier": "for all quote characters and all quoted bodies that do not contain the closing quote (single quotes may be doubled), in any surrounding plain text", "why_tests_cant": "The claim ranges over infinitely many strings; tests sample a handful.", "anchors": ["syntax/scanner.go: scanQuotedPlain"]}
{"id": "C05", "title": "Doubled bind variable characters are plain text", "statement": "`??` and `$$` in a template are copied verbatim (both characters) and never consume an argument.", "quantifier": "for all templates built from plain text and any number of doubled markers", "why_tests_cant": "The claim ranges over infinitely many strings; tests sample a handful.", "anchors": ["syntax/scanner.go: scanPlain"]}
{"id": "C06", "title": "Question marks are numbered by position", "statement": "The k-th `?` of a template denotes the k-th argument of its fragment.", "quantifier": "for all templates using ?-style variables, all k", "why_tests_cant": "The claim ranges over infinitely many strings; tests sample a handful.", "anchors": ["syntax/parser.go: bindVarExpr", "build.go: buildClause"]}
{"id": "C07", "title": "$n denotes exactly argument n", "statement": "`$n` denotes argument n of the fragment, for any decimal n without leading zero up to the largest int; `$`, `$0`, `$01` and numbers beyond uint64 are syntax errors.", "quantifier": "for all n >= 1 and all surrounding text not starting with a digit", "why_tests_cant": "The claim ranges over infinitely many strings; tests sample a handful. Boundary values of integer parsing are unbounded.", "anchors": ["syntax/scanner.go: scanIndex", "syntax/parser.go: bindVarExpr"]}
{"id": "C08", "title": "Mixing ? and $n in one template is rejected", "statement": "Expected: a template using both ?-style and $n-style variables is a syntax error. This is false: a ? after a $n is accepted (Dollar is also the 'unset' style), e.g. `$1, ?`. What holds: a $n anywhere after a ? is a syntax error, and nothing else is rejected for mixing.", "quantifier": "for all templates containing a ? variable and a $n variable", "why_tests_cant": "The claim ranges over infinitely many strings; tests sample a handful. The repository's own test only covers one of the two orders.", "anchors": ["syntax/parser.go: bindVarExpr", "syntax/nodes.go: BindVarStyle"]}
{"id": "C09", "title": "#nameN is the same call as #name(N)", "statement": "The short form #nameN and the call #name(N) parse to the same function call with the same argument.", "quantifier": "for all names of letters/underscores and all digit strings N", "why_tests_cant": "The claim ranges over infinitely many strings; tests sample a handful.", "anchors": ["syntax/scanner.go: scanFuncName", "syntax/parser.go: funcExpr"]}
{"id": "C10", "title": "A # that does not start a name is rejected", "statement": "A template in which an unquoted # is not followed by an ASCII letter or underscore is a syntax error, after any parts that may precede a #. (Directly after a function value #f the lexer swallows the next character, which is characterised separately.)", "quantifier": "for all templates with such a # after plain text", "why_tests_cant": "The claim ranges over infinitely many strings; tests sample a handful.", "anchors": ["syntax/scanner.go: scanFunc, scanFuncName", "syntax/parser.go: funcExpr"]}
{"id": "C11", "title": "String arguments of functions round trip", "statement": "Writing a NUL-free string s as a function argument '...' with single quotes doubled passes exactly s to the function.", "quantifier": "for all NUL-free byte strings s", "why_tests_cant": "The claim ranges over infinitely many strings; tests sample a handful. Quote doubling has combinatorially many shapes.", "anchors": ["syntax/scanner.go: scanFuncArgQuoted", "syntax/parser.go: funcExpr"]}
{"id": "C12", "title": "Templates written from parts parse back to those parts", "statement": "Printing a list of template parts (text, doubled markers, quoted text, bind variables, calls with literals, indexed calls) and parsing the result gives back these parts in order.", "quantifier": "for all lists of well-formed parts of any length", "why_tests_cant": "The claim ranges over infinitely many strings; tests sample a handful.", "anchors": ["syntax/scanner.go", "syntax/parser.go"]}
{"id": "C13", "title": "Function values may be adjacent to other references", "statement": "Expected: in a #join template a function value may be followed directly by another reference, e.g. #f#arg or #f$1. This is false for every function name: #f#g and #f$n are syntax errors and #f? turns the ? into plain text.", "quantifier": "for all function names followed directly by a reference", "why_tests_cant": "A test would have to guess the adjacent combination; the corner is a silent wrong query for #f?.", "anchors": ["syntax/parser.go: funcExpr (default case)"]}
{"id": "C14", "title": "Question style: the n-th ? of the query is bound to the n-th returned argument", "statement": "For queries built from fragments, the i-th placeholder in the text refers to the i-th element of the argument list, provided every committed argument is referenced; placeholders always refer to committed arguments in commit order. With query builders too, placeholders refer to committed arguments, and no two of them to the same one.", "quantifier": "for all trees of fragments, columns, tables of any depth and width; the last sentence for all library-built trees and heaps of query builders", "why_tests_cant": "A relation between the produced text, the argument list and the input tree for every tree; tests check single trees.", "anchors": ["context_args.go: questionArgStore", "build.go", "func_builtin.go"]}
{"id": "C15", "title": "Dollar style: every $k of the query denotes the intended value", "statement": "Each placeholder $k emitted for a value v satisfies 1 <= k <= len(args) and args[k-1] == v.", "quantifier": "for all trees of fragments, columns, tables and query builders, all hashable values", "why_tests_cant": "A relation between the produced text, the argument list and the input tree for every tree; tests check single trees.", "anchors": ["context_args.go: dollarArgStore", "build.go"]}
{"id": "C16", "title": "Dollar style: equal values share one placeholder, distinct values never do", "statement": "Two committed values receive the same $k iff they are equal in the sense of Go's ==; the argument list contains each value once in order of first use.", "quantifier": "for all sequences of commits of hashable values", "why_tests_cant": "Quantifies over all sequences of values and Go equality on them.", "anchors": ["context_args.go: dollarArgStore.CommitArg"]}
{"id": "C17", "title": "Both styles describe the same query", "statement": "Building the same tree in Dollar and Question style gives the same text up to the rendering of placeholders, and corresponding placeholders stand for equal values; one fails iff the other fails.", "quantifier": "for all library-built trees with hashable arguments", "why_tests_cant": "A relation between the produced text, the argument list and the input tree for every tree; tests check single trees.", "anchors": ["context.go: newEmptyContext", "context_args.go"]}
{"id": "C18", "title": "Argument values never influence the query text", "statement": "In Question style replacing argument values by any other values leaves the query text unchanged and replaces the arguments pointwise: no argument can inject SQL. In Dollar style the same holds for every replacement of hashable values that keeps different values different and equal ones equal: the text depends on the values only through which of them are equal (making two different values equal does change it).", "quantifier": "for all library-built trees and heaps of query builders, all functions on values (Question), all functions on hashable values preserving equality and difference (Dollar)", "why_tests_cant": "A relation between the produced text, the argument list and the input tree for every tree; tests check single trees. Injection safety is a universal statement over attacker-chosen values.", "anchors": ["build.go: buildClause", "properties.go: arg.BuildFragment", "context_args.go"]}
{"id": "C19", "title": "Arguments already committed are never changed", "statement": "During any build, including arbitrary user code in custom builders and functions, the argument list only grows at its end and an already issued placeholder keeps denoting the same value.", "quantifier": "for all builders including arbitrary user code, all contexts", "why_tests_cant": "Quantifies over arbitrary user programs.", "anchors": ["context_args.go", "build.go"]}
{"id": "C20", "title": "Building never panics", "statement": "Expected: BuildQuery returns an error rather than panicking. This is false: unhashable arguments in Dollar style, number literals for string parameters such as #join(1,2), and nil columns panic. What holds: a fragment panics only because one of its own references names an unhashable argument in Dollar style or passes a number literal to a non-number parameter; nothing its children do can make it panic.", "quantifier": "for all fragment trees", "why_tests_cant": "Absence of panics for all inputs; the witnesses are inputs nobody writes in tests.", "anchors": ["context_args.go: dollarArgStore.CommitArg", "func_exec.go: evalArg", "build.go"]}
{"id": "C21", "title": "Prefix and suffix appear only around non-empty content", "statement": "A fragment builds to the empty string iff its trimmed body is empty, and then prefix/suffix are omitted; otherwise the result is prefix, space, trimmed body, space, suffix (empty ones omitted). A nil fragment builds to the empty string without error.", "quantifier": "for all fragments, contexts and styles", "why_tests_cant": "The claim ranges over infinitely many strings; tests sample a handful.", "anchors": ["build.go: BuildFragment"]}
{"id": "C22", "title": "Every argument of a fragment is used", "statement": "A successful build implies that each argument of the fragment was committed at least once; an argument no reference reaches makes the build fail.", "quantifier": "for all fragments, any functions", "why_tests_cant": "Ranges over all templates and argument lists.", "anchors": ["context_fragment.go: checkUsage", "properties.go", "property.go"]}
{"id": "C23", "title": "Every sub-fragment of a fragment is built", "statement": "A successful build implies that each child fragment has been built at least once.", "quantifier": "for all fragments, any functions", "why_tests_cant": "Ranges over all templates and child lists.", "anchors": ["context_fragment.go: checkUsage", "func_builtin.go: funcFragment"]}
{"id": "C24", "title": "References are local to their fragment", "statement": "Building a child inside a parent gives the same text as building it alone, up to placeholder numbering: references in the child resolve only to the child's own arguments and fragments.", "quantifier": "for all trees", "why_tests_cant": "A relation between the produced text, the argument list and the input tree for every tree; tests check single trees.", "anchors": ["context_fragment.go: contextWithFragment", "build.go"]}
{"id": "C25", "title": "#join without range joins all items in order", "statement": "#join('#f', sep) yields the builds of the fragment's children 1..n in order, separated by sep, empty ones skipped together with their separator; likewise #join('#arg', sep) yields the n placeholders.", "quantifier": "for all separators, all child lists / argument lists of any length", "why_tests_cant": "Unbounded list length, induction needed.", "anchors": ["func_builtin.go: funcJoin"]}
{"id": "C26", "title": "#join ranges are inclusive and checked", "statement": "#join(t, sep, from, to) joins exactly the items from..to and reports an invalid index as an error when the range exceeds the items; from > to is an error.", "quantifier": "for all ranges and list lengths", "why_tests_cant": "All ranges times all lengths.", "anchors": ["func_builtin.go: funcJoin"]}
{"id": "C27", "title": "Errors of joined children are reported", "statement": "Expected: if building a child inside #join fails, the build fails. This is false: a failure that is, or wraps, ErrInvalidIndex (e.g. a child with an invalid #f2) silently ends the list, so a WHERE condition can disappear. What holds: every other failure of a joined child fails the build, and the silent case always drops the failing child and all later ones.", "quantifier": "for all children and templates", "why_tests_cant": "The wrong behaviour is silent loss of a condition; it depends on the error kind of a nested failure.", "anchors": ["func_builtin.go: funcJoin", "properties.go: Build"]}
{"id": "C28", "title": "Zipped templates require equal lengths", "statement": "Expected: #join('#fragment=#arg', sep) with different numbers of fragments and arguments is an error. This is false when there is exactly one fragment more than arguments: it is built and silently dropped. What holds: equal lengths give the zipped list, and every success has equal lengths or exactly one fragment more.", "quantifier": "for all list lengths", "why_tests_cant": "Unbounded lengths; only unequal lengths expose it.", "anchors": ["func_builtin.go: funcJoin", "context_fragment.go: checkUsage"]}
{"id": "C29", "title": "An invalid index outside #join is an error", "statement": "A bind variable or #f/#arg call whose index is out of range makes the build of that fragment fail.", "quantifier": "for all indices out of range, all surrounding templates", "why_tests_cant": "The claim ranges over infinitely many strings; tests sample a handful.", "anchors": ["build.go: buildClause", "properties.go: Build"]}
{"id": "C30", "title": "Builds terminate", "statement": "Every build ends, and more time never changes its result, provided that no query builder contains itself (directly or through others), that registered functions do not build further fragments, and that a registered function which takes an index fails from some index on. A build never makes query builders contain themselves. Without any one of the three conditions there is a build that never ends.", "quantifier": "for all builders, contexts, stores and heaps of query builders meeting the conditions", "why_tests_cant": "Termination cannot be tested.", "anchors": ["func_builtin.go: funcJoin", "build.go", "sqlb/query_builder_build.go", "sqlb/query_builder_dependecy.go"]}
{"id": "C31", "title": "Function lookup: innermost definition wins", "statement": "A function name resolves to the innermost ContextWithFuncs layer defining it; unknown names and wrong argument counts are errors and the function is not called.", "quantifier": "for all layer stacks and names", "why_tests_cant": "The claim ranges over infinitely many strings; tests sample a handful.", "anchors": ["context_func.go", "func_exec.go: evalFunction, evalCall"]}
{"id": "C32", "title": "Every registered function can be called", "statement": "Expected: every name accepted by ContextWithFuncs can be called as #name(). This is false for names with non-ASCII letters: they are accepted but can never be parsed. What holds: every accepted ASCII name can be called, and only such names are ever called.", "quantifier": "for all accepted names", "why_tests_cant": "Ranges over all Unicode names.", "anchors": ["func.go: goodName", "syntax/lexer.go: IsLetter"]}
{"id": "C33", "title": "Panics inside functions become errors", "statement": "A panic raised inside a called preprocessing function (including a nested build) is returned as an error of the build.", "quantifier": "for all custom functions and panic values", "why_tests_cant": "Quantifies over arbitrary user code.", "anchors": ["func_exec.go: safeCall"]}
{"id": "C34", "title": "The join compatibility test has no side effect on the build", "statement": "Checking a function's compatibility with #join never commits arguments to, or changes usage of, the running build.", "quantifier": "for all custom functions", "why_tests_cant": "Quantifies over arbitrary user code.", "anchors": ["func.go: joinCompatibility"]}
{"id": "C35", "title": "Clauses appear in SQL order", "statement": "A successful QueryBuilder build yields the WITH, SELECT (followed by hidden order columns), FROM with joins, WHERE, GROUP BY, ORDER BY, LIMIT, OFFSET and UNION clauses in this order, each built from exactly the corresponding members of the builder, at most once, separated by single spaces, optional ones present exactly when non-empty; conversely, if every clause builds, the build succeeds with this text.", "quantifier": "for all query builders that build successfully", "why_tests_cant": "Holds for every sequence of builder calls; tests exercise a few.", "anchors": ["sqlb/query_builder_build.go: buildInternal"]}
{"id": "C36", "title": "QueryBuilder arguments are in placeholder order (Question style)", "statement": "Expected: the n-th ? of a built QueryBuilder query is bound to the n-th argument. This is false for all values v, w: SELECT is built last but printed first, so Select(\"$1 AS x\", v) with Where(\"y=$1\", w) gives the arguments in the order w, v. What holds: numbered placeholders ($n) stay correct.", "quantifier": "for all query builders", "why_tests_cant": "The misbinding is silent and needs arguments in SELECT and elsewhere.", "anchors": ["sqlb/query_builder_build.go: buildInternal, buildSelects"]}
{"id": "C37", "title": "Optional joins are trimmed exactly when unreferenced", "statement": "With DISTINCT, an optional join is emitted if it is reachable from the tables mentioned in the clauses through the ON conditions of needed tables, and only then provided no unaliased table has the name of a CTE (otherwise an unneeded join can be kept, refuted by witness); without DISTINCT every join is emitted; non-optional joins are always emitted.", "quantifier": "for all table graphs", "why_tests_cant": "Reachability over arbitrary graphs; needs induction.", "anchors": ["sqlb/query_builder_dependecy.go", "sqlb/query_builder_build.go: buildFrom"]}
{"id": "C38", "title": "Join elimination keeps every table the query mentions", "statement": "Expected: no emitted clause mentions a trimmed table. This is false: the ON condition of a kept non-optional join may reference an optional join that is trimmed. What holds: every table needed by the other clauses, or through ON conditions of needed tables, is defined and kept, and what a kept optional join mentions is needed.", "quantifier": "for all table graphs", "why_tests_cant": "Needs a specific graph shape.", "anchors": ["sqlb/query_builder_dependecy.go: collectDependencies"]}
{"id": "C39", "title": "Exactly the needed CTEs are emitted", "statement": "Expected: a CTE is emitted iff an emitted table names it or an emitted CTE depends on it, in declaration order. This is false when a table without alias has the name of a CTE with dependencies: the dependencies are lost. What holds: exactness and declaration order if no unaliased table is named like a CTE; CTEs named by kept tables are always emitted.", "quantifier": "for all CTE dependency graphs, including cycles", "why_tests_cant": "Reachability over arbitrary graphs.", "anchors": ["sqlb/query_builder_dependecy.go: collectDepsFromCTE", "sqlb/query_builder_build.go: buildCTEs"]}
{"id": "C40", "title": "Building twice gives the same query", "statement": "Expected: BuildQuery can be called repeatedly with the same result. This is false for DISTINCT with ORDER BY: _order_ columns accumulate with every build. What holds: if no builder combines DISTINCT with ORDER BY and all orders are valid, building changes nothing but the SELECT prefix and every later build of anything gives the same result.", "quantifier": "for all query builders", "why_tests_cant": "State leakage between builds over all builders.", "anchors": ["sqlb/query_builder_order.go: buildOrders", "sqlb/query_builder_build.go"]}
{"id": "C41", "title": "An invalid order is reported", "statement": "Expected: OrderBy with an order value outside the six constants makes BuildQuery fail. This is false: the first build silently drops the item. What holds: after a successful build with an invalid order, every later build of that builder fails.", "quantifier": "for all order values", "why_tests_cant": "Needs invalid constant plus two builds.", "anchors": ["sqlb/query_builder_order.go: buildOrders"]}
{"id": "C42", "title": "CrossJoin adds a cross join", "statement": "Expected: CrossJoin(t) adds CROSS JOIN t. This is false: it panics for every named table and every builder, like every join with a nil condition.", "quantifier": "for all tables and builders", "why_tests_cant": "Never covered by tests; universal panic.", "anchors": ["sqlb/query_builder_join.go: CrossJoin, join"]}
{"id": "C43", "title": "References to undefined tables are errors", "statement": "A column of a table that was never added by From or a join makes the build fail.", "quantifier": "for all builders and table names", "why_tests_cant": "Holds for every sequence of builder calls; tests exercise a few.", "anchors": ["sqlb/query_builder_dependecy.go: collectDepsFromTable"]}
{"id": "C44", "title": "An empty table name is a sticky error", "statement": "From or a join with an empty table name makes every later BuildQuery fail with an error.", "quantifier": "for all call sequences containing such a call", "why_tests_cant": "Holds for every sequence of builder calls; tests exercise a few.", "anchors": ["sqlb/query_builder_join.go", "sqlb/query_builder_errors.go"]}
{"id": "C45", "title": "Building without From is an error", "statement": "Expected: a QueryBuilder without From yields an error. This is false: without any table it panics, for every sequence of other calls; and with joins but no From every successful build has nothing between FROM and the first join.", "quantifier": "for all builders without From", "why_tests_cant": "Panic-freedom over all call sequences.", "anchors": ["sqlb/query_builder_dependecy.go: collectDependencies"]}
{"id": "C46", "title": "LIMIT and OFFSET", "statement": "The LIMIT/OFFSET clause shows the last positive value given, non-positive values are ignored, and it is absent when none was given.", "quantifier": "for all call sequences", "why_tests_cant": "Holds for every sequence of builder calls; tests exercise a few.", "anchors": ["sqlb/query_builder.go: Limit, Offset"]}
{"id": "C47", "title": "Empty unions are skipped", "statement": "Expected: union members that build to nothing are left out, and with no remaining member no UNION is emitted. The first part holds; the second is false: if all members are empty, UNION () is emitted.", "quantifier": "for all lists of union members", "why_tests_cant": "Holds for every sequence of builder calls; tests exercise a few.", "anchors": ["sqlb/query_builder_build.go: buildUnion"]}
{"id": "C48", "title": "Replacing the main table removes the old one", "statement": "Expected: after a second From the old main table is no longer known. This is false for all pairs of tables with different names: it stays resolvable, so references to it are accepted although it is not in FROM.", "quantifier": "for all pairs of tables", "why_tests_cant": "Holds for every sequence of builder calls; tests exercise a few.", "anchors": ["sqlb/query_builder_join.go: From"]}
{"id": "C49", "title": "ArgsFlatted flattens exactly one level", "statement": "The result is the concatenation, in order, of each item's elements if it is a slice/array (or pointer to one) and the item itself otherwise. It panics exactly when an item is a nil pointer to one of ten slice types (*[]int, *[]string, ...).", "quantifier": "for all argument lists", "why_tests_cant": "The claim ranges over infinitely many strings; tests sample a handful.", "anchors": ["util/args.go"]}
{"id": "C50", "title": "Interpolate replaces every bind variable by its literal", "statement": "For a query whose bind variables are in range and arguments supported, Interpolate returns the query with each variable replaced by the encoded argument and everything else unchanged.", "quantifier": "for all queries and argument lists", "why_tests_cant": "The claim ranges over infinitely many strings; tests sample a handful.", "anchors": ["util/interpolate.go"]}
{"id": "C51", "title": "Interpolate reports missing arguments as an error", "statement": "Expected: a bind variable without argument makes Interpolate return an error. This is false: it panics, exactly when the first expression that cannot be replaced is such a variable or one whose argument's Value or String method panics; Count's error path panics with it instead of returning the database's error.", "quantifier": "for all queries with too few arguments", "why_tests_cant": "Needs mismatching inputs.", "anchors": ["util/interpolate.go: Interpolate", "util/scan.go: Count"]}
{"id": "C52", "title": "Interpolated strings are inert literals", "statement": "The encoding of a string is a single-quoted literal that the library's own scanner reads as one inert quoted text, and distinct strings have distinct encodings.", "quantifier": "for all NUL-free strings", "why_tests_cant": "The claim ranges over infinitely many strings; tests sample a handful.", "anchors": ["util/interpolate.go: quoteStringValue"]}
{"id": "C53", "title": "Scan reports iteration errors", "statement": "Expected: if the row iteration ends with an error, Scan returns it. This is false: rows.Err() is never consulted; for every database the result is the same whether or not the iteration ended with an error.", "quantifier": "for all databases", "why_tests_cant": "Needs a driver failing in mid-iteration.", "anchors": ["util/scan.go: Scan"]}
{"id": "C54", "title": "Scan returns one item per row and drops extra columns", "statement": "Scan returns exactly the decoded rows in order, using the first columns and ignoring extra ones; a failing row fails the scan. ScanBuilder scans the built query and returns the error of a build that fails.", "quantifier": "for all result sets", "why_tests_cant": "The claim ranges over infinitely many strings; tests sample a handful.", "anchors": ["util/scan.go: Scan, ScanRow"]}
{"id": "C55", "title": "Count counts the query", "statement": "Count sends SELECT COUNT(1) FROM (query) list with the same arguments and returns the database's number, 0 for no rows. CountBuilder counts the built query and returns the error of a build that fails.", "quantifier": "for all queries and databases", "why_tests_cant": "The claim ranges over infinitely many strings; tests sample a handful.", "anchors": ["util/scan.go: Count"]}
{"id": "C56", "title": "No condition is silently dropped", "statement": "Expected: a WHERE condition, column or group item that cannot be built makes the build fail. This is false: if it is the last of its clause and fails with an invalid #f/#arg index, the clause is built without it, for every clause; any other failure fails the clause.", "quantifier": "for all members of all clauses, all contexts", "why_tests_cant": "A missing WHERE condition is silent; needs an invalid reference in the last condition.", "anchors": ["sqlb/query_builder.go: NewQueryBuilder", "func_builtin.go: funcJoin"]}
{"id": "C57", "title": "Builder calls accumulate per clause", "statement": "After any sequence of calls the WHERE, GROUP BY, ORDER BY, UNION and WITH members are exactly those given, in call order; Select replaces the columns (ignored without columns); Limit and Offset keep the last positive value; Distinct and Debug are sticky.", "quantifier": "for all call sequences", "why_tests_cant": "Holds for every sequence of builder calls; tests exercise a few.", "anchors": ["sqlb/query_builder.go", "sqlb/query_builder_where.go", "sqlb/query_builder_order.go", "sqlb/query_builder_with.go"]}
{"id": "C58", "title": "Interleaving of calls for different clauses is irrelevant", "statement": "Two call sequences that agree on the table calls and on each clause's calls give the same builder, hence the same query.", "quantifier": "for all pairs of call sequences", "why_tests_cant": "Quantifies over all pairs of call sequences.", "anchors": ["sqlb/query_builder.go", "sqlb/query_builder_join.go"]}
{"id": "C59", "title": "Every join appears in the query", "statement": "Expected: each named join appears after the main table in call order. What holds: From puts its table first, a join of a new name is appended, a join of a known name replaces the table of that name in its place. The expectation is false: after a second From, a join of the first main table's name is lost for all such calls, and a join of the main table's name takes its place.", "quantifier": "for all builders, tables and joins", "why_tests_cant": "Holds for every sequence of builder calls; tests exercise a few.", "anchors": ["sqlb/query_builder_join.go: From, join"]}
{"id": "C60", "title": "What building may change", "statement": "Building anything, successfully or not, with any user code, changes in every query builder at most the SELECT prefix, appends hidden columns and appends errors.", "quantifier": "for all builders, contexts and user code", "why_tests_cant": "Quantifies over arbitrary user code and failures.", "anchors": ["sqlb/query_builder_build.go", "sqlb/query_builder_order.go"]}
{"id": "C61", "title": "Texts of columns, tables, joins, conditions and orders", "statement": "Columns are table.name, tables name AS alias, joins KIND JOIN table ON condition, Where2 column op placeholder, WhereIn column IN (placeholders), order items column WORD, clauses their non-empty members separated by the separator after the prefix.", "quantifier": "for all plain names, all members, all contexts with the built-in functions", "why_tests_cant": "Holds for every sequence of builder calls; tests exercise a few.", "anchors": ["sqlb/table.go", "sqlb/table_aliased.go", "sqlb/query_builder_join.go", "sqlb/query_builder_where.go", "sqlb/query_builder_order.go"]}
{"id": "C62", "title": "Text primitives mean what the Go documentation says", "statement": "Results and clauses are trimmed of exactly the Unicode white space around them; joining puts the separator between the items; printed numbers are in decimal notation without leading zeros; a number in $n is accepted iff it is decimal digits with a value below 2^64; string arguments have every pair of quotes replaced by one, and interpolated strings every quote by two.", "quantifier": "for all byte strings, valid UTF-8 or not, all lists and all numbers", "why_tests_cant": "Byte strings are unbounded and include invalid encodings; tests use a handful of ASCII texts.", "anchors": ["build.go: Build (strings.TrimSpace, strings.Join)", "context_args.go: strconv.Itoa", "syntax/parser.go: strconv.ParseUint, ReplaceAll", "util/interpolate.go: ReplaceAll"]}
{"id": "C63", "title": "Arguments of a call are checked before the function runs", "statement": "Expected: a call with a wrong number of arguments or an argument of the wrong kind is an error and the function is not run; otherwise the function runs and its failures are reported as errors naming it. This is false in one case: a number where a string or boolean is expected makes the whole build panic. What holds: in every other case exactly the expected outcome, and parameters of defined string or boolean types can never be supplied.", "quantifier": "for all functions (built-in or registered, variadic or not), all argument lists, all contexts", "why_tests_cant": "Signatures and argument lists are unbounded combinations.", "anchors": ["func_exec.go: evalCall, evalArg, safeCall"]}
{"id": "C64", "title": "Exactly the documented functions can be registered", "statement": "ContextWithFuncs accepts a map iff each name consists of letters and underscores, each parameter after an optional leading *Context is a number, string or boolean, and the results are none, a string, or a string and an error; otherwise it returns an error and the context is unusable for building.", "quantifier": "for all maps with ASCII names and all signatures", "why_tests_cant": "Signatures are unbounded; tests try a few.", "anchors": ["func.go: addValueFuncs, goodName, goodFunc, goodArgType", "context_func.go: ContextWithFuncs"]}
{"id": "C65", "title": "Parsed expressions carry the position of their text; errors point into the template", "statement": "The expressions of an accepted template are written one after the other in it and each carries the line and column where its own text begins, counted in characters, except that a text beginning with a line break is reported at column 0 of the next line (so the claim that every position is the place of the text is false). The offset named by a syntax error is never beyond the end of the template.", "quantifier": "for all templates without a NUL character (offsets: for all strings)", "why_tests_cant": "Positions depend on everything before an expression, including multi-byte and invalid characters; no test of the repository looks at them.", "anchors": ["syntax/lexer.go: Next, StartToken", "syntax/scanner.go: emitToken", "syntax/parser.go: Parse, bindVarExpr, funcExpr, syntaxError", "syntax/nodes.go: Pos"]}
{"id": "C66", "title": "Whole SELECT statements come out as written", "statement": "For every SELECT statement made of columns, a main table, joins on the equality of two columns, comparisons and (NOT) IN conditions, groups, orders, LIMIT, OFFSET and DISTINCT over tables with different names: every sequence of builder calls that describes it, in whatever order the clauses are given, succeeds and builds exactly the text of that statement. An optional join of a SELECT DISTINCT appears exactly if its table is needed by a column of the other clauses or by the join condition of a needed table; of a SELECT, always. In the question style each argument is a ? and the arguments are those of the conditions in order; in the dollar style the arguments are the different ones and each placeholder denotes the argument at its place.", "quantifier": "for all statements with printable names, all values, all sequences of calls describing the statement", "why_tests_cant": "Tests compare a handful of queries; the claim is about all combinations of clauses, calls and values.", "anchors": ["sqlb/query_builder.go", "sqlb/query_builder_join.go", "sqlb/query_builder_where.go", "sqlb/query_builder_order.go", "sqlb/query_builder_build.go", "fragment.go: BuildTo", "context_args.go: CommitArg"]}
{"id": "C67", "title": "Sharing a fragment is the same as copying it", "statement": "What a fragment or column builds depends on the fragments it holds only through what these build. If no fragment contains itself (directly or through others), every reference stands for exactly one finite tree, builds as this tree however parts are shared between places, and the build ends. Fragments that contain themselves at the beginning of their templates never finish building.", "quantifier": "for all heaps of fragment objects, references, contexts and argument stores", "why_tests_cant": "Sharing and nesting are unbounded; non-termination cannot be observed by a test.", "anchors": ["fragment.go: Fragment", "build.go: BuildFragment", "properties.go: NewFragmentProperties", "sqlb/table_column.go: ExprColumn"]}
{"id": "C68", "title": "Fragment methods change the fragment in place", "statement": "WithPrefix, WithSuffix, WithArgs and WithFragments change exactly the named field of the fragment they are called on; everything that holds the fragment sees the change, and nothing that does not lead to the fragment is affected. On a nil fragment they panic.", "quantifier": "for all heaps, fragments, new values", "why_tests_cant": "The claim quantifies over all other references in the program.", "anchors": ["fragment.go: WithPrefix, WithSuffix, WithArgs, WithFragments"]}
{"id": "C69", "title": "Joins keep the caller's conditions usable", "statement": "A join sets the prefix of the caller's ON fragment to ON. As long as the ON fragments are not used anywhere else in the query, the query builder is the one its calls describe with the fragments as given. Using the same fragment in WHERE after or before a join yields WHERE ON ... (refuted), and a later WithPrefix on it replaces the ON (refuted).", "quantifier": "for all sequences of builder calls, all heaps of fragments", "why_tests_cant": "Tests use a fresh fragment per call; the effect depends on sharing.", "anchors": ["sqlb/query_builder_join.go: join (on.WithPrefix)", "sqlb/query_builder_where.go: Where"]}
{"id": "C70", "title": "AppendArgs and AppendFragments append", "statement": "AppendArgs and AppendFragments make the fragment's list the old one followed by the new elements. Fragments whose slices have no element in the cells behind the end of the appended slice keep theirs; in particular all of them when there is no spare capacity. Two fragments made from one slice with spare capacity overwrite each other's appended arguments (independence refuted); elements written by the caller show in the fragment.", "quantifier": "for all heaps, slices with any offset, length and capacity, all appended elements, any growth policy of append", "why_tests_cant": "Whether a write is visible depends on capacities chosen by the runtime and by callers.", "anchors": ["fragment.go: AppendArgs, AppendFragments", "shortcut.go: Fa, Ff"]}
{"id": "C71", "title": "Properties shared between fragments", "statement": "A custom function func(ctx, i int) (string, error) that returns props.Build(ctx, i), for NewArgsProperties or NewFragmentProperties, is accepted by ContextWithFuncs under every valid name; #name(i) commits the i-th argument or builds the i-th fragment and is ErrInvalidIndex outside of 1..len; the function can be joined: #join('#name', sep, ranges) joins the properties of the range in order. In the dollar style, joining the same argument properties again, after anything else was built, gives the same text and adds no argument; in the question style, or for NaN, it does (refuted).", "quantifier": "for all lists of properties, function names, templates that parse to the call, separators, numeric indexes, stores, and builds in between", "why_tests_cant": "The number of properties, the indexes and what is built between two uses are unbounded; the tests use three integers and two fragments.", "anchors": ["properties.go: Properties.Build, NewArgsProperties, NewFragmentProperties", "property.go: defaultProperty", "func_builtin.go: #join", "example_test.go: ExampleContextWithFuncs"]}
{"id": "C72", "title": "Names of tables and columns are written as given", "statement": "Expected: Column(name) of a table builds to table.name for every name. This is false: names are templates, so a name with a question mark fails the build, and the last column of a list disappears without an error if its name ends with #f and a number. What holds: names made of plain text, quoted text and doubled markers are written as given; every NUL-free name put in quotes (quotes inside doubled) is written as given, for Columns lists too; a name without # is written as given or fails the build; a column is looked up in exactly the table it was made from (its alias if there is one).", "quantifier": "for all table names, aliases, column names and environments", "why_tests_cant": "The claim ranges over all names; tests use a few plain ones.", "anchors": ["sqlb/table.go", "sqlb/table_aliased.go", "sqlb/table_column.go"]}
{"id": "C73", "title": "Interpolating a built query shows every value in its place", "statement": "Expected: building a query and interpolating it with its arguments shows the query with the literal of every argument in its place, in both styles. This is false in general: with question marks, an argument in the select list and one in the conditions are shown exchanged, and with numbered placeholders -0 is shown as 0. What holds: for SELECT statements whose arguments are in the conditions, both styles show exactly the statement with the literals (numbered: if arguments equal in Go have equal literals); and for everything built by the library, the numbered text shows the value of every placeholder of the expansion, if the placeholders are kept apart from the text that follows.", "quantifier": "for all statements, argument values, time formats and builders", "why_tests_cant": "The claim ranges over all queries and values and combines building, deduplication and interpolation.", "anchors": ["util/interpolate.go", "build.go", "context_args.go", "sqlb/query_builder_build.go"]}
{"id": "C74", "title": "Statements made of several queries come out as written", "statement": "A query that uses other queries as common table expressions (with dependencies), as subqueries in conditions and as united queries gives the text of the whole statement: the WITH clause holds exactly the expressions that are used by the tables that appear, optional joins appear exactly if needed, every subquery stands in its place, and the arguments are numbered through the whole statement in the order of the text, in both styles. A query may be used at any number of places, except that one with both SELECT DISTINCT and ORDER BY may be used at one place only: it is built twice and differs the second time (refuted).", "quantifier": "for all sets of queries that refer to each other without cycles, all nesting depths, all argument values, both styles", "why_tests_cant": "Nesting is unbounded and combines every clause, the selection of common table expressions and the argument store.", "anchors": ["sqlb/query_builder_build.go", "sqlb/query_builder_with.go", "sqlb/query_builder_dependecy.go", "build.go", "context_args.go: CommitArg"]}
{"id": "C75", "title": "The parser accepts exactly the templates of the grammar", "statement": "A grammar of templates given by rules (text, doubled marks, quoted and unclosed quoted text, question-mark and dollar bind variables, function values, calls with arguments and calls with an index) describes the parser completely: the parser returns a list of expressions for a text exactly when the rules derive that list from that text, it rejects a text exactly when the rules derive nothing from it, and the rules are unambiguous.", "quantifier": "for all texts without a NUL byte (what follows a NUL byte is ignored by the scanner, see C03) and all lists of expressions", "why_tests_cant": "Both directions quantify over all texts; a test only tries chosen ones and cannot show that nothing else is accepted.", "anchors": ["syntax/parser.go", "syntax/lexer.go", "syntax/scanner.go"]}
{"id": "C76", "title": "Leaving out optional joins changes no answer", "statement": "Expected (doc comment of LeftJoinOptional): leaving out the optional joins that are not referenced gives the same result. Over a small semantics of SELECT statements (joins, conditions, groups, DISTINCT, order, limit) the statement without the left-out joins, whose text is what is built, has the same answers on every database as the statement with all joins, provided that the conditions of non-optional joins mention only tables that appear, that everything selected or ordered by is grouped by if anything is, and that expressions without a table do not depend on the tables. Without these conditions it is false: counting rows of groups gives different numbers (refuted), and so does a non-optional join on a table that is left out (refuted).", "quantifier": "for all statements, all databases (values, rows, comparison, conditions, orders), all answers", "why_tests_cant": "The claim is about the meaning of the emitted SQL on every database; tests only compare texts.", "anchors": ["sqlb/query_builder_join.go: LeftJoinOptional", "sqlb/query_builder_dependecy.go: collectDependencies", "sqlb/query_builder_build.go: buildFrom"]}
{"id": "C77", "title": "Without DISTINCT an optional join works exactly like a join", "statement": "For query builders that are not asked for distinct rows it makes no difference which joins are optional: two programs whose calls differ in nothing else describe their queries with the same outcome, and everything built from them has the same text, arguments, errors and panics (the claim of the comment on LeftJoinOptional). With DISTINCT the text differs (refuted).", "quantifier": "for all sequences of calls on any number of query builders, all subsets of joins made optional, all things built, both styles, all fuel", "why_tests_cant": "The flag is read at two places of the build, in combination with dependencies, common table expressions and nested builders.", "anchors": ["sqlb/query_builder_join.go", "sqlb/query_builder_dependecy.go", "sqlb/query_builder_build.go"]}
{"id": "C78", "title": "Registering functions does not depend on the order of the map", "statement": "A FuncMap is accepted exactly if every key is a valid name and every value is a function with an allowed signature (a value that is not a function, nil included, is refused). Then every key finds its function, every other name is found as in the parent context, and neither depends on the order in which Go visits the map. The error names the first visited entry at fault (quoted, whatever its bytes) and says what is wrong with it; createValueFuncs then gives nothing. After an error the context that ContextWithFuncs still returns holds the functions visited before the entry at fault, so it does depend on the order (refuted).", "quantifier": "for all FuncMaps, all visiting orders, all parent contexts, all names", "why_tests_cant": "Go's map order is random: a test sees some orders only.", "anchors": ["func.go", "context_func.go", "contex_with.go"]}
{"id": "C79", "title": "Builders that cannot be told apart can be exchanged anywhere", "statement": "If two builders give the same text, error or panic and the same arguments in every context, then exchanging one for the other at any number of places in nested fragments and columns gives a fragment that cannot be told apart from the first. In the selects, conditions, joins, groupings, orderings, unions and CTEs of query builders the exchange is also invisible if both builders name the same tables; without that it is not (refuted: a column and its text under DISTINCT with an optional join). Such pairs are: a user builder that only hands on what another one gives; a column and its expression; all builders of the same fixed text (nil fragment, nil query, empty table name, plain template ...). Fragments whose templates parse alike but for positions, the style of bind variables ('?' or '$1') and the cutting of texts ('#f1' or '#f(1)') give results that differ at most in the texts of errors, which quote the template (refuted: that they do not differ at all).", "quantifier": "for all relations between builders, all fragments, query builders, calls, contexts and styles", "why_tests_cant": "A test compares two ways of writing one statement in one place; here every place of every statement is covered.", "anchors": ["build.go", "fragment.go", "context_fragment.go", "func_builtin.go", "sqlb/query_builder.go", "sqlb/query_builder_build.go", "sqlb/query_builder_dependecy.go", "sqlb/table_column.go", "syntax/parser.go"]}
{"id": "C80", "title": "Debug mode only logs", "statement": "With Debug() on any of the query builders involved, nested ones included, a build gives the same query and arguments, or the same error or panic, and leaves the builders in the same state as without Debug(), unless util.Interpolate panics on a text built for one of those builders; then the build fails. That does not happen if no method of an argument panics and no text runs into a placeholder, which holds whenever the templates have firm text after their references and no unescaped markers in their plain texts and prefixes. In general it does happen (refuted: a question mark in a prefix; an argument whose Value method panics), and for a nested builder the logged query can show the values of others (refuted).", "quantifier": "for all builders without user code, all sets of builders in debug mode, all arguments and styles", "why_tests_cant": "Debug mode is switched on for single statements by hand; that it never changes a query, in any nesting, is a statement about all builders, and the exceptions are inputs nobody tries with Debug().", "anchors": ["sqlb/query_builder_build.go", "sqlb/query_builder.go", "util/interpolate.go", "context_args.go"]}
{"id": "C81", "title": "Building reads and changes only what it can reach", "statement": "Take a set of query builders whose parts, user code included, hold no query builders outside the set. Whatever is built from it has the same text, arguments, errors and panics whatever the other builders are, and none of them changes. So statements that share no query builder can be built in any order, any number of times, without an effect on each other, and what holds no query builders neither reads nor changes any. Statements that share one do affect each other (refuted).", "quantifier": "for all sets of query builders, all builders and user code, both styles, all outcomes", "why_tests_cant": "Says what does not happen: that no build, failing ones included, has an effect on any builder it is not given.", "anchors": ["sqlb/query_builder_build.go", "sqlb/query_builder_order.go", "build.go", "func.go"]}
{"id": "C82", "title": "Embedding a statement that user code builds on its own", "statement": "A custom builder that calls BuildQuery of something, commits the arguments it got and returns the query gives in Question style exactly what building that thing in place gives: text, arguments, errors, panics and the state of the query builders. In either style this holds if nothing was committed before. In Dollar style after other arguments the placeholders refer to the wrong values (refuted).", "quantifier": "for all builders made of library types, all arguments, all contexts in Question style", "why_tests_cant": "Relates two ways to build, for all builders and all preceding arguments.", "anchors": ["build.go", "context.go", "context_args.go", "sqlb/query_builder_build.go"]}
{"id": "C83", "title": "Errors say what is wrong and where", "statement": "The text of every error and panic of a build describes an actual defect of the thing that was built, under the template, function, common table expression or table it names. For example 'args #k unused' implies that argument k has no direct reference in the template and that everything before k may be referred to; 'invalid bind var index i' that such a reference exists and i is outside; 'arg k has wrong type for #f' that the first literal that does not fit has this position and this kind; 'from undefined: t' that t is needed and unknown; 'build CTE ...' that this common table expression is listed and fails with the rest of the text; 'collected errors' lists exactly the errors of the query builder in order. A syntax error is exactly the one of the template, at its place (C85). Every error of a fragment begins with its template. Parameter numbers count from 1 in functions with a context and from 0 in functions without one (refuted that they count alike).", "quantifier": "for all builders, all query builders, all functions in scope, all contexts", "why_tests_cant": "Soundness of every message for every input; tests see single messages.", "anchors": ["build.go", "func_exec.go", "func_builtin.go", "errors.go", "context_args.go", "context_fragment.go", "sqlb/query_builder_build.go", "sqlb/query_builder_errors.go", "sqlb/query_builder_dependecy.go"]}
{"id": "C84", "title": "What has no defect builds", "statement": "A thing without defects builds successfully in every context, with enough fuel, and builds again afterwards any number of times. Without defects means: templates parse; every argument and fragment is referred to, directly or through a #join; references are in range; functions are known and called with fitting numbers and kinds of literals; the ranges of #join lie inside the shortest list of their template; in Dollar style values can be hashed; user code fails only if something it builds fails; query builders have a table, collected no errors, know all tables that are needed and select something that is not just white space. Describing a query with defect-free calls gives such a query builder. The converse is false: a #join without upper bound silently ends at a last fragment that fails with an invalid index.", "quantifier": "for all builders, query builders, lists of calls, functions in scope, styles", "why_tests_cant": "A completeness statement: no spurious failures for any input from an infinite family of nested builders.", "anchors": ["build.go", "func_exec.go", "func_builtin.go", "context_args.go", "context_fragment.go", "sqlb/query_builder.go", "sqlb/query_builder_build.go", "sqlb/query_builder_dependecy.go", "sqlb/query_builder_where.go", "sqlb/query_builder_join.go", "sqlb/query_builder_order.go"]}
{"id": "C85", "title": "Syntax errors say what is wrong and where", "statement": "For every text, the parser fails with offset k and message m exactly if, reading the text (up to its first NUL byte) part by part, the first part that is wrong is wrong in a way that m describes and the wrong place starts after k bytes: a $ without a number, a number too large, a $ after a ?, a ? before a digit, a # without a name, an index too large, a name or number where none may stand, or arguments that are empty, not values, not closed, or not separated. A text has at most one such error, and it is rejected exactly if it has one.", "quantifier": "for all byte strings, offsets and messages", "why_tests_cant": "Tests compare the messages of a few malformed templates; the claim covers every malformed template, including which of several errors is reported and the byte offset after multi-byte white space.", "anchors": ["syntax/parser.go", "syntax/scanner.go", "syntax/lexer.go", "syntax/token.go"]}
{"id": "C86", "title": "Closed parts give closed queries", "statement": "If in every text of a builder the parentheses and quotes are closed (fragment texts read with their references and argument marks outside quotes, #join templates and separators, prefixes together with their suffixes, table and CTE names, and the texts that user code returns when it is given such texts), then in every text built from it, in any context, all parentheses and quotes are closed, and the query builders keep this property. Method calls with closed parts give such query builders. A closed text put anywhere outside quotes changes nothing in how the rest is read.", "quantifier": "for all builders, query builders, user functions, contexts, styles and calls", "why_tests_cant": "Tests compare the text of some queries; that no part can break out of its place is a claim about all combinations of fragments, joins, prefixes, unions and nested queries.", "anchors": ["build.go", "func_builtin.go", "fragment.go", "sqlb/query_builder_build.go", "sqlb/query_builder_order.go", "sqlb/query_builder_join.go", "sqlb/query_builder_where.go", "sqlb/query_builder_with.go", "sqlb/table.go"]}
{"id": "C87", "title": "Interpolation errors say what could not be inserted", "statement": "Interpolate returns an error exactly when the query has a syntax error (the error is the one of the grammar, at its place), or when all expressions before one are replaced and that one is a function (the error names the line and column where it is written) or a bind variable whose argument has no literal: its Value method returns an error (which is the error of Interpolate), or it (or what Value returned) is of a type that has no literal (the error names the Go type). Every argument has a literal, such a reason, or a method that panics; a reason excludes the others.", "quantifier": "for all queries without NUL, arguments and time formats", "why_tests_cant": "Tests interpolate some values; that every failure is reported, for the first defect, with its own text and place is a claim about all queries and arguments.", "anchors": ["util/interpolate.go", "syntax/pos.go", "syntax/parser.go"]}
{"id": "C88", "title": "The order of arguments and fragments only matters for their numbers", "statement": "If the arguments and the fragments of a fragment are given in another order and the numbers in the template (?, $n, #argN, #fN, under any names of these functions) are changed accordingly, then in every context the same text, arguments and query builders come out, and an error stays an error (of the same sort). Equal arguments or fragments may also be merged into one: what was built is still built. The converse of merging is false: an argument given twice must be used twice.", "quantifier": "for all templates without #join, arguments, fragments, renumberings, contexts, user functions and styles", "why_tests_cant": "Tests compare some templates; that numbers, and nothing else about the lists, decide what a reference means is a claim about all orders.", "anchors": ["build.go", "func_builtin.go", "properties.go", "context_fragment.go"]}
{"id": "C89", "title": "A built query can be used as a template", "statement": "Take the text and the arguments of a built query as the template and the arguments of a fragment. With question marks, it builds to the same text (trimmed) and adds exactly the same arguments, in every context and wherever it is used, if the text mentions all arguments; otherwise it is an error, never a different query. With numbered placeholders it builds to itself if the numbers come up in order and no argument is a NaN, and in any case to a query that shows the same values when interpolated. Without query builders, the numbered query is what the one with question marks builds to as a template. Refuted where the conditions fail: numbers that come up in another order are exchanged; a NaN mentioned twice becomes two arguments; question marks in a prefix become references; a join may commit arguments that the text does not mention.", "quantifier": "for all trees of library builders and query builders with tidy templates, arguments, fuels, contexts and states", "why_tests_cant": "Tests could rebuild some queries; that nothing in a built text is read differently when parsed again is a claim about all templates and arguments.", "anchors": ["build.go", "context_args.go", "syntax/parser.go", "syntax/lexer.go", "util/interpolate.go"]}
{"id": "C90", "title": "UTF-8 is decoded as defined, and exactly the identifiers can be registered", "statement": "The UTF-8 encoding (RFC 3629) of every code point that is not a surrogate is decoded to that code point with its length, from the front and from the end of a text; a text that does not begin (end) with an encoding gives the error rune and one byte. The encoding is unique. A function name is accepted exactly if it is the encoding of one or more letters of Unicode and underscores; names with invalid UTF-8 are refused. The table of letters agrees with the letters written out up to U+024F and has as many letters as Unicode 15.0. Maps of functions of any names are accepted exactly if all names are identifiers and all signatures are allowed.", "quantifier": "for all byte strings, code points, names and maps of functions", "why_tests_cant": "There are over a million code points and unboundedly many invalid byte sequences; tests check a few.", "anchors": ["func.go", "syntax/lexer.go", "build.go", "sqlb/query_builder_build.go"]}
{"id": "C91", "title": "What builds has no defect", "statement": "For a tree of fragments, columns and tables, with the functions of the library, in which every index and range given to #arg, #fragment and #join exists and every #join without end runs through lists of the same length: it builds if and only if it has no defect in the sense of C84 (templates parse, calls name known functions with arguments that fit, every argument and fragment is referred to, values can be looked up in Dollar style). Whether it builds depends on the style but not on what has been built before. It builds in Dollar style exactly if it builds in Question style and all its values can be looked up. It never fails with an invalid index. Each of the three conditions on #join and the indexes is necessary: without it a defect can go unnoticed.", "quantifier": "for all trees of builders, values, templates, states and both styles", "why_tests_cant": "That a success rules out every defect is a statement about all templates and trees at once; tests show that some defects are reported.", "anchors": ["build.go", "func.go", "func_builtin.go", "func_exec.go", "context_args.go", "context_fragment.go", "properties.go"]}
{"id": "C92", "title": "Names in messages are quoted without ambiguity", "statement": "The messages about unknown functions and invalid function names quote the name (the verb %q). The quoted text escapes exactly double quotes, backslashes, characters that are not printable and bytes that are not UTF-8, each in its shortest form; it consists of printable characters only, so a message stays in one line; different names give different messages. Names that can be registered and names of calls in templates (ASCII letters and underscores) are quoted without any escape. The table of printable characters agrees with that of letters, with Latin-1 written out and with the number of printable characters of Unicode 15.0.", "quantifier": "for all byte strings, valid UTF-8 or not", "why_tests_cant": "Injectivity and the absence of control characters concern all byte strings; tests try a few.", "anchors": ["func.go", "func_exec.go", "syntax/lexer.go"]}
{"id": "C93", "title": "Times become the RFC 3339 text of the nearest microsecond", "statement": "Without options Interpolate writes a time as the RFC 3339 text (year, month, day, hour, minute, second of its zone's clock, and the zone's offset) of the instant rounded to the nearest microsecond, the zero time as '0000-00-00'. The date is that of the Gregorian calendar counted day by day. The text never contains a quote, so the interpolated query is inert text; this also holds for every layout without quotes. The text determines the second, but not the microsecond the time was rounded to (refuted); a layout with microseconds does. The last layout given counts, a nil option panics. A layout with a quote ends the literal (refuted), since the text is not escaped. The monotonic clock reading is not shown, yet makes two times with the same text different arguments (refuted: equal texts mean equal arguments).", "quantifier": "for all times, locations and zones, layouts, option lists, queries", "why_tests_cant": "Calendar arithmetic over all instants, and all layouts; the test formats one time.", "anchors": ["util/interpolate.go: encodeValue", "util/interpolate.go: applyInterpolateOptions", "context_args.go"]}
{"id": "C94", "title": "WithTimeFormat writes what the layout says", "statement": "With a layout given by WithTimeFormat, Interpolate writes a time as a quoted text that follows the layout element by element: reading from left to right, the longest of the 34 fixed elements (or a fraction of a second) that stands at a place is replaced by the year, month, day, weekday, day of the year, hour, minute, second, fraction, zone or offset of the nearest microsecond on the clock of its zone, padded as the element says; everything else stands for itself. The zero time is '0000-00-00' with every layout. Each time has exactly one moment and each layout says exactly one thing of it; a layout without elements is the text of every time. Words and numbers may be taken for elements, twelve-hour clocks do not tell morning from evening, and less than a minute west of UTC the sign goes to the seconds (refuted).", "quantifier": "for all layouts, times, locations and zones", "why_tests_cant": "All layouts and instants; the test uses one layout and one time.", "anchors": ["util/interpolate.go: encodeValue", "util/interpolate.go: WithTimeFormat"]}
{"id": "C95", "title": "Leaving out joins and common table expressions changes no answer of a nested statement", "statement": "Over a small semantics of statements made of several queries (common table expressions as tables for what follows, subqueries in conditions, unions), the statement as built, in which every query at every depth lacks its optional joins and common table expressions that are not needed, has the same answers on every database as the statement as described, provided that a common table expression read by another one is declared as its dependency, that one read by a subquery or a united query is also used by the query itself, and that every query meets the conditions of C76. Every such statement has an answer. Without the condition on united queries it is false: a common table expression read by a united query only is left out (refuted).", "quantifier": "for all sets of queries, all nesting depths, all databases, all meanings of conditions and subquery comparisons, all answers", "why_tests_cant": "The claim is about the meaning of nested SQL on every database; tests only compare a few texts.", "anchors": ["sqlb/query_builder_dependecy.go: collectDependencies", "sqlb/query_builder_dependecy.go: collectDepsFromCTE", "sqlb/query_builder_build.go: buildCTEs", "sqlb/query_builder_build.go: buildFrom", "sqlb/query_builder_with.go: With"]}
{"id": "C96", "title": "A fragment builds exactly when its parts do, and to exactly what they come to", "statement": "There are rules, free of any bound, that say what each part of a template comes to: text stands for itself; a placeholder or #arg binds the argument; #fragment is what that fragment builds to; a user function is what it returns, if the call suits its parameters; #join is the non-empty results of its rounds separated by the separator, where the rounds run from the lower limit to the upper one, or to the last one that lacks nothing, and lacking something inside given limits is a failure. A fragment builds to a text if and only if the rules give a body for its template with every argument and fragment used by some part, and the text is then the trimmed body between prefix and suffix (nothing if the body is blank). It fails for want of an argument or fragment if and only if the rules say so. The rules lead to one result and one state.", "quantifier": "for all templates, arguments, fragments (of any kind and depth), user functions, function environments, states and bounds", "why_tests_cant": "An equivalence of the evaluator with its rules over all templates and user functions; tests sample some templates, and cannot show that nothing else ever builds.", "anchors": ["build.go: BuildFragment", "build.go: buildClause", "func_exec.go: evalCall", "func_builtin.go: funcJoin", "func_builtin.go: funcArg", "func_builtin.go: funcFragment", "func_exec.go: evalFunction", "context_fragment.go", "properties.go"]}
{"id": "C97", "title": "Numbers given to functions are fitted into their parameter types without an error", "statement": "A user function whose parameter has a type of integers receives, for a number of a template or of a round of #join, the number without its fraction, reduced to the one value of the type that differs from it by a multiple of the number of values of the type. This is the number itself if the type has it (for numbers written with digits below 2^53 that number is the one written), and always some value of the type: a number too large is never an error, but another number (#f(300) with int8 is 44). The call comes to what the function makes of that value. Consequently #join through a function that indexes properties by such a parameter joins exactly the properties whose one-based index the type has, in order, and leaves the others out without any error (with uint8 the 256th and all after it).", "quantifier": "for all integer types, numbers, functions, function environments, templates that are such a call, lists of arguments or fragments, separators and states", "why_tests_cant": "Holds for all numbers, types and list lengths, of which tests sample a few; the results of wrong conversions are ordinary texts that no error marks.", "anchors": ["func_exec.go: evalArg", "func.go: numberType", "func.go: joinCompatibility", "func_builtin.go: funcJoin", "properties.go"]}
{"id": "C98", "title": "A query keeps exactly the tables and common table expressions of a fixed choice, also when names coincide", "statement": "A query builder (without Debug) builds if and only if it has a main table, no nil fragment in its clauses, every table needed by them is known, no error is recorded, and its clauses build with exactly the following choice of tables and common table expressions (CTEs); its text is then their layout. A table is kept if it belongs in the query, or has no alias and the name of a CTE that is followed. A CTE is kept if a table in use (the main table or one that a clause needs) is written with its bare name, or if it is followed: the CTEs of the tables of the query and, transitively, their dependencies, but never through one whose bare name a table in use bears. The choice always exists and is unique. If no table in use bears the bare name of a CTE, exactly the needed CTEs are kept. The dependencies of a CTE that is followed are always kept; those of a CTE that is kept only because of a bare table name are not (FROM x with x depending on y leaves y out, FROM x AS a does not).", "quantifier": "for all query builders made by From, joins and With, all clauses, contexts, states and bounds", "why_tests_cant": "An equivalence over all queries, which settles what happens with every coincidence of table names, aliases and CTE names; tests cover some combinations and the wrong query only fails in the database.", "anchors": ["sqlb/query_builder_dependecy.go: collectDependencies", "sqlb/query_builder_dependecy.go: collectDepsFromCTE", "sqlb/query_builder_dependecy.go: collectDepsFromTable", "sqlb/query_builder_build.go: buildCTEs", "sqlb/query_builder_build.go: buildFrom"]}
{"id": "C99", "title": "One closed set of rules says what every builder comes to", "statement": "A single inductive system of rules, closed over all builders nested in each other (nil, fragments, columns, tables, query builders with their tables, joins, CTEs, conditions, groups, orders, hidden columns and unions, #arg, #fragment, #join, custom functions; only the code of custom builders and functions is taken as given), derives for a builder and a state either a text and a next state or the report that an argument or fragment is lacking. For every environment of functions (one of variable arity having a parameter, as in Go), and every heap of query builders made by From, joins and With without Debug: a builder builds to a text and a state if and only if the rules derive exactly these; it fails for want of an argument or fragment if and only if the rules derive that; the rules derive at most one result and state; BuildQuery returns a text, arguments and query builders if and only if the rules lead from the new context to these. The condition on the heap is kept by every build. Replacing the fragments of a fragment by others that come to the same leaves what it comes to unchanged.", "quantifier": "for all builders of any nesting, environments of functions, contexts, argument values and heaps of query builders without Debug", "why_tests_cant": "An equivalence with an inductive semantics over all nestings and states; a test compares one text with one expectation and says nothing about any other combination, nor that a result is the only one.", "anchors": ["build.go: build", "build.go: buildClause", "func_builtin.go: funcJoin", "func_exec.go: evalCall", "sqlb/query_builder_build.go: buildInternal", "sqlb/query_builder_order.go: buildOrders", "sqlb/table_column.go", "sqlb/table.go", "sqlb/table_aliased.go"]}
{"id": "C100", "title": "Interpolated values stay the literals they are", "statement": "A reader of SQL (words, numbers, strings with doubled quotes, quoted identifiers, both kinds of comments, single operator characters) that reads the text Interpolate returns finds the tokens of the query's own texts and, in the place of each placeholder, exactly the tokens of its value: one string literal whose content is the string, the String() text or the formatted time, a number with its sign (NaN and Inf as words), or the words NULL, TRUE and FALSE. So other values of the same kinds and signs change only the content of literals, never the structure of the query. Needed for it, and refuted without: placeholders stand between tokens (after a minus sign a negative number begins a comment), formatted times have no quote (they are not escaped), and in dialects where a backslash escapes, strings have no backslash.", "quantifier": "for all queries whose placeholders stand alone, all argument lists that can be read back, both dialects of strings and every time format", "why_tests_cant": "That no content of any value can end its literal or begin another is a statement over all byte strings; a test tries a few attacks.", "anchors": ["util/interpolate.go: Interpolate", "util/interpolate.go: encodeValue"]}
{"id": "C101", "title": "The text of a SELECT says which statement it is", "statement": "A reader of SELECT statements (clauses, lists, joins, conditions joined by AND, ordering, limits) that reads the text of a built query recovers the statement its calls described: the selected columns and, under DISTINCT, the hidden ordering columns with their names, the main table, the joins that are kept with their kinds and conditions, every condition with its column, its comparison and its placeholders, the grouping, the ordering, the limit and the offset. So two builders that come to the same text and the same arguments described the same statement, in Question style with the same values, in Dollar style with values equal in Go to the same argument. Names that are not plain words break this: such a pair of different statements with one text is given.", "quantifier": "for all statements of the form of C66 whose names are unreserved words and whose comparisons are operator characters or one word, all orders of the describing calls and both styles", "why_tests_cant": "That no two different statements share a text is a statement over all pairs; a test compares texts it wrote down.", "anchors": ["sqlb/query_builder_build.go: buildInternal", "sqlb/query_builder_where.go: Where2", "sqlb/query_builder_order.go: OrderBy", "sqlb/query_builder_join.go: LeftJoin", "sqlb/table_column.go: Column"]}
{"id": "C102", "title": "An interpolated SELECT reads back as its statement and its values", "statement": "The text that Interpolate returns for a built SELECT, read as SQL by the reader of C101 after the tokens of C100, gives the statement the calls described, with exactly the literal of the right value as every operand, whatever the values are: no content of a string, Stringer or time adds, removes or moves a condition, a clause or another operand. So two such builders with the same interpolated text described the same statement, with values that are shown by the same literals. With an operator that ends in a minus sign this fails, and the witness shows the later conditions swallowed by a comment.", "quantifier": "for all statements of C101, all values that can be read back, both styles (Dollar style when equal arguments have equal literals) and every time format without quotes", "why_tests_cant": "That no value whatsoever changes how the statement is read is a statement over all byte strings in all places of all statements.", "anchors": ["util/interpolate.go: Interpolate", "util/interpolate.go: encodeValue", "sqlb/query_builder_build.go: buildInternal", "sqlb/query_builder_where.go: WhereIn"]}
{"id": "C103", "title": "The text of a statement of several queries says which statement it is", "statement": "A reader of statements made of several queries (With lists, conditions comparing a column with a parenthesised query, UNION lists, all nested to any depth) that reads the text of a build recovers the tree of queries the calls described: which common table expressions are written, under which names and in which order, with their queries, every subquery at its condition with its operator, every united query, and at every level the clauses of C101, each with its own share of the placeholders. So two collections of builders that come to the same text and arguments described the same tree of queries, in Question style with the same values and in Dollar style with values equal in Go to the same argument. The names of common table expressions are written as they are, and without a condition on them the claim fails: a witness gives two common table expressions and one that share a text.", "quantifier": "for all books of queries of C74 whose names (those of the written common table expressions included) are unreserved words and whose operators are operator characters, IN, NOT IN or a comparison followed by a word, all orders of the describing calls, any depth and both styles", "why_tests_cant": "Where one query ends and the next begins at every depth, and that no two trees of queries share a text, are statements over all pairs of trees.", "anchors": ["sqlb/query_builder_build.go: buildInternal", "sqlb/query_builder_build.go: buildCTEs", "sqlb/query_builder_with.go: With", "sqlb/query_builder.go: Union", "sqlb/query_builder_where.go: Where"]}
{"id": "C104", "title": "Interpolation of a statement of several queries reads back as its queries and their values", "statement": "Interpolate, given the text and arguments of a build with common table expressions, subqueries and united queries nested to any depth, puts the literal of every value at the place of that value in the query it belongs to and changes nothing else. Read as SQL by the reader of C103, the result gives the tree of queries the calls described, with exactly the literal of the right value as every operand: no content of a string, Stringer or time closes a parenthesis, ends a query or moves a value into another query. So two collections of builders with the same interpolated text described the same tree of queries, with values that are shown by the same literals. A name of a common table expression is written unchecked, and a witness shows a dollar sign and a number in such a name being replaced by an argument.", "quantifier": "for all books of queries of C74 (C103 for the reading) with plain names of common table expressions, any depth, all values with literals, both styles (Dollar style when equal arguments have equal literals) and every time format that the values allow", "why_tests_cant": "Which query each of arbitrarily many values lands in, at any depth and for any content, is a statement over all trees and all byte strings.", "anchors": ["util/interpolate.go: Interpolate", "util/interpolate.go: encodeValue", "sqlb/query_builder_build.go: buildInternal", "sqlb/query_builder_build.go: buildCTEs", "sqlb/query_builder_with.go: With", "sqlb/query_builder.go: Union"]}
{"id": "C105", "title": "Executing a built SELECT gives the answers of the described statement", "statement": "Take a database engine that gets only the text of the build and the arguments: it splits the text into tokens, reads it as one SELECT, gives the placeholders the values of the arguments (question marks by position, $n by number) and literals their own values, and evaluates joins, conditions, grouping, DISTINCT, order, limit and offset. Its rows are exactly the answers of the statement the calls described, without optional joins that do not appear; by C76 these are the answers of the whole statement. Both bind var styles give the same rows. The text that Interpolate makes of the build, executed without arguments, gives the same rows as the text executed with its arguments. In Dollar style equal Go values share a placeholder, so the engine must not tell them apart: a witness with positive and negative zero shows a database that answers the two styles differently.", "quantifier": "for all SELECT statements of C66 with readable names (C101), all sequences of calls that describe them, all engines (any values, tables, tests, expressions and orders), both styles, all argument values; for interpolation, engines whose literals have the value of the arguments they are written for", "why_tests_cant": "It quantifies over all databases and all statements; a test compares rows or texts of a few.", "anchors": ["sqlb/query_builder_build.go: buildInternal", "sqlb/query_builder_where.go: Where2", "sqlb/query_builder_where.go: WhereIn", "sqlb/query_builder_dependecy.go: collectDependencies", "util/interpolate.go: Interpolate", "context_args.go: CommitArg"]}
{"id": "C106", "title": "Executing a built statement of several queries gives the answers of the described statement", "statement": "Take a database engine that gets only the text and the arguments of a build: it pairs up parentheses, reads the tree of queries, counts question marks through the whole text (common table expressions, conditions with subqueries, united queries) or looks up $n, makes every common table expression a table for what follows it, compares columns with the rows of subqueries and puts united rows together. Its rows are exactly the answers of the tree of queries the calls described, without the joins and common table expressions that do not appear; by C95 these are the answers of the whole tree. Both bind var styles give the same rows, and so does the text that Interpolate makes of the build, executed without arguments. So no value reaches a condition of another query, at any depth.", "quantifier": "for all books of queries of C74 with readable names (C103), any depth, all sequences of calls that describe them, all engines (any values, tables, tests, subquery tests, orders), both styles (Dollar style: engines that do not tell equal Go values apart), all argument values; for interpolation, engines whose literals have the value of the arguments they are written for", "why_tests_cant": "It quantifies over all databases and all trees of queries of any depth; a test compares rows or texts of a few.", "anchors": ["sqlb/query_builder_build.go: buildInternal", "sqlb/query_builder_build.go: buildCTEs", "sqlb/query_builder_with.go: With", "sqlb/query_builder.go: Union", "context_args.go: CommitArg", "util/interpolate.go: Interpolate"]}
{"id": "C107", "title": "Which built statements are in the grammar of SQL", "statement": "Expected: every successful build gives a statement in the grammar of SQL. This is false in two ways. OrderBy, Limit and Offset of a query with Union are written before the UNION and without parentheses, where SQL allows them only after all united queries; and WhereIn or WhereNotIn of an empty list gives IN (), where SQL needs at least one value. These are the only ways: the text of a tree of queries (common table expressions, subqueries, united queries, any depth) is in the grammar exactly if no query of the tree that unites others has an order, limit or offset of its own and no list of values is empty. The same holds for the text after interpolation.", "quantifier": "for all books of queries of C74 with readable names (C103), any depth, all sequences of calls that describe them, both styles, all argument values", "why_tests_cant": "The equivalence covers all trees of queries; a test shows single texts.", "anchors": ["sqlb/query_builder_build.go: buildInternal", "sqlb/query_builder.go: Union", "sqlb/query_builder_where.go: WhereIn", "sqlb/query_builder_where.go: WhereNotIn"]}
{"id": "C108", "title": "Pages by Limit and Offset", "statement": "Reading a query page by page, with Limit(k) and Offset(i*k) added to the calls of an unbounded query, gives page i of what executing the unbounded query gives: the built text of the page, executed, has exactly the rows i*k to (i+1)*k-1 (fewer at the end) of an answer of the unbounded text. If the unbounded query has no more than one answer, in particular if its order never leaves two different rows equal, the pages one after the other are its rows, none twice and none left out. Without that, the expectation that pages cover every row once is false: rows that are equal in order may be on two pages while others are on none. And one cannot go back to the first page with the same builder, since Offset(0) leaves the offset as it is.", "quantifier": "for all SELECT statements of C66 with readable names (C101) and neither limit nor offset, all sequences of calls describing them, all page sizes k > 0 and page numbers, both styles, all databases (Dollar style: all that do not tell apart values that are equal in Go)", "why_tests_cant": "It speaks of all databases, statements, page sizes and page numbers.", "anchors": ["sqlb/query_builder.go: Limit", "sqlb/query_builder.go: Offset", "sqlb/query_builder_build.go: buildInternal", "sqlb/query_builder_order.go: OrderBy"]}
{"id": "C109", "title": "What ScanBuilder and CountBuilder return", "statement": "On a database that executes what it is asked (C105, C106), ScanBuilder returns one item per row of an answer of the described SELECT, in order, each decoded from the values of the first selected columns; the ordering columns that the builder adds to a SELECT DISTINCT do not reach the items, and an error of the database is returned. CountBuilder returns the number of rows of an answer of the described statement, also for statements of several queries, and never a number if the database reports an error. With Distinct the scanned rows have no repetition if everything ordered by is selected; the expectation that this holds for any order is false: the added ordering column makes rows different, and ScanBuilder returns the same item twice.", "quantifier": "for all SELECT statements of C66 (Count: all books of queries of C74) with readable names (C101, C103), all sequences of calls that describe them, both styles, all databases that execute statements (Dollar style: that do not tell apart values that are equal in Go), all numbers of fields up to the selected columns and all conversions", "why_tests_cant": "It speaks of all databases, statements and conversions; the tests of the repository have no database.", "anchors": ["util/scan.go: ScanBuilder", "util/scan.go: Scan", "util/scan.go: ScanRow", "util/scan.go: CountBuilder", "util/scan.go: Count", "sqlb/query_builder_build.go: buildSelects"]}
{"id": "C110", "title": "Conditions commute, repeating one changes nothing, and a further condition only removes rows", "statement": "The conditions given by Where2, WhereIn and WhereNotIn are all required, each by itself: giving them in another order changes no answer of the executed statement, although placeholders and arguments move; giving a condition again changes no answer either; and giving further conditions leaves a part of the rows (each at most as often as before), also if a condition brings an optional join into the statement that was left out without it. The expectation that a further condition only removes rows is false for queries with Limit or Offset.", "quantifier": "for all pairs of SELECT statements of C66 with readable names (C101) that differ only in their conditions, all sequences of calls describing them, both styles, all databases (Dollar style: that do not tell apart values that are equal in Go; removing rows: no groups and bounds, and the conditions of C76 on optional joins)", "why_tests_cant": "It compares the answers of pairs of statements on all databases.", "anchors": ["sqlb/query_builder_where.go: Where2", "sqlb/query_builder_where.go: WhereIn", "sqlb/query_builder_where.go: WhereNotIn", "sqlb/query_builder_dependecy.go: collectDependencies", "sqlb/query_builder_build.go: buildInternal"]}
{"id": "C111", "title": "When the conditions of a query are all required", "statement": "Conditions of any text given to Where (also next to Where2, WhereIn, WhereNotIn) are joined to one WHERE clause such that, read as SQL reads NOT, AND, OR, BETWEEN and parentheses, the clause holds exactly if every condition holds, provided that no condition has an OR outside of parentheses. A condition put in parentheses by the caller always satisfies this and means the same. The expectation that the conditions are all required without that restriction is false: the code adds no parentheses, and if the first condition is `a OR b`, the clause holds wherever a holds, whatever the other conditions are.", "quantifier": "for all sequences of calls on a new query builder, all conditions that build (from all stores and environments with join and fragment) to texts that are complete (ends outside of strings and comments, parentheses paired, BETWEEN with its AND, no outer blanks), all interpretations of the conditions without NOT, AND, OR", "why_tests_cant": "The meaning of a joined text is quantified over all conditions and all interpretations; tests compare texts and do not see that a text means something else than its parts.", "anchors": ["sqlb/query_builder_where.go: Where", "sqlb/query_builder.go: NewQueryBuilder", "sqlb/query_builder_build.go: buildInternal", "func_builtin.go: funcJoin"]}
{"id": "C112", "title": "Select only chooses columns and OrderBy only orders", "statement": "Without Distinct, calls that differ only in the selected columns give statements whose answers correspond row by row: same rows in the same order, the same value wherever the same column is selected, also with joins (optional ones included), conditions, groups, orders, limit and offset. Calls that differ only in their orders give, without limit and offset, the same rows in another order. With Distinct the first expectation is false: other columns give another number of rows.", "quantifier": "for all pairs of SELECT statements of C66 with readable names (C101) without DISTINCT that differ only in the selected columns (or only in the orders), all sequences of calls describing them, both styles, all databases (Dollar style: that do not tell apart values that are equal in Go)", "why_tests_cant": "It compares the answers of pairs of statements on all databases.", "anchors": ["sqlb/query_builder.go: Select", "sqlb/query_builder_order.go: OrderBy", "sqlb/query_builder_build.go: buildInternal", "sqlb/query_builder_build.go: buildSelects"]}
{"id": "C113", "title": "In statements of several queries the order of conditions, subqueries and unions is irrelevant", "statement": "Giving the conditions (also those with subqueries) and the united queries of any query of a statement in another order, at any depth, changes no answer of the executed statement, although texts, placeholders and arguments move.", "quantifier": "for all books of queries of C74 with readable names (C103) and all reorderings of the conditions and unions of any of the queries, all sequences of calls describing them, both styles, all databases and interpretations of comparisons with subqueries (Dollar style: that do not tell apart values that are equal in Go)", "why_tests_cant": "It compares the answers of pairs of nested statements of any depth on all databases; arguments of subqueries and unions must follow their texts for this to hold.", "anchors": ["sqlb/query_builder.go: Union", "sqlb/query_builder_where.go: Where", "sqlb/query_builder_build.go: buildUnion", "sqlb/query_builder_build.go: buildInternal"]}
{"id": "C114", "title": "The aliases of tables can be chosen freely", "statement": "Calls that differ only in the names their tables are known by (other aliases, aliases where there were none or none where there were, also swapped between tables), consistently in tables and columns, give statements with the same answers.", "quantifier": "for all statements of C47 with readable names (C103) and all renamings after which no two tables are known by the same name, all sequences of calls describing them, both styles, all databases where expressions without table do not depend on rows (Dollar style: that do not tell apart values that are equal in Go)", "why_tests_cant": "It relates the answers of all pairs of renamed statements on all databases, with any joins, groups and orders; tests try a few aliases.", "anchors": ["sqlb/table_aliased.go: AppliedName", "sqlb/table_aliased.go: Column", "sqlb/table.go: preBuildColumn", "sqlb/query_builder_build.go: buildFrom", "sqlb/query_builder_build.go: buildSelects", "sqlb/query_builder_join.go"]}
{"id": "C115", "title": "Distinct only removes repeated rows", "statement": "Calls with and without Distinct give statements with the same rows, except that those with Distinct come once each and carry the values they are ordered by; leaving out unneeded optional joins with Distinct loses no row. With an order the selected values alone may repeat (refuted).", "quantifier": "for all statements of C47 with readable names (C103), without limit and offset, whose other joins mention only tables that appear and whose columns are grouped by if anything is (C76), all sequences of calls describing them with and without Distinct, both styles, all databases where expressions without table do not depend on rows (Dollar style: that do not tell apart values that are equal in Go)", "why_tests_cant": "It compares the answers of pairs of statements with different joins on all databases; tests compare texts.", "anchors": ["sqlb/query_builder.go: Distinct", "sqlb/query_builder_join.go: LeftJoinOptional", "sqlb/query_builder_dependecy.go: collectDependencies", "sqlb/query_builder_build.go: buildSelects", "sqlb/query_builder_order.go: buildOrders"]}
{"id": "C116", "title": "Grouping: order and repetition are irrelevant, and grouping by what is selected is Distinct", "statement": "Giving the columns of GroupBy in another order or several times changes no answer. Grouping by exactly what is selected and ordered by gives the answers of Distinct, with any limit and offset, except that Distinct also shows the values ordered by.", "quantifier": "for all statements of C47 with readable names (C103) (second part: without groups, whose other joins mention only tables that appear), all sequences of calls describing them, both styles, all databases (second part: where expressions without table do not depend on rows; Dollar style: that do not tell apart values that are equal in Go)", "why_tests_cant": "It relates the answers of pairs of statements on all databases; the two forms of the second part also keep different optional joins.", "anchors": ["sqlb/query_builder.go: GroupBy", "sqlb/query_builder.go: Distinct", "sqlb/query_builder_build.go: buildInternal", "sqlb/query_builder_build.go: buildSelects", "sqlb/query_builder_order.go: buildOrders", "sqlb/query_builder_dependecy.go: collectDependencies"]}
{"id": "C117", "title": "Joins that do not mention each other can change places", "statement": "Calls of InnerJoin, LeftJoin and LeftJoinOptional whose ON conditions do not mention each other's tables can be made in any order without changing an answer. With RightJoin this fails (refuted).", "quantifier": "for all statements of C47 with readable names (C103) in which what is selected and ordered by is grouped by (if anything is), all sequences of exchanges of neighbouring joins that do not mention each other, all sequences of calls describing them, both styles, all databases where expressions without table do not depend on rows (Dollar style: that do not tell apart values that are equal in Go)", "why_tests_cant": "It relates the answers of all reordered statements on all databases; optional joins may be left out on both sides.", "anchors": ["sqlb/query_builder_join.go: InnerJoin", "sqlb/query_builder_join.go: LeftJoin", "sqlb/query_builder_join.go: LeftJoinOptional", "sqlb/query_builder_join.go: RightJoin", "sqlb/query_builder_join.go: join", "sqlb/query_builder_build.go: buildFrom"]}
{"id": "C118", "title": "Tables can change sides: LeftJoin from one is RightJoin from the other", "statement": "From(a) with a join of b gives the answers of From(b) with the join of a, where InnerJoin and FullJoin stay and LeftJoin and RightJoin are exchanged.", "quantifier": "for all statements of C47 with readable names (C103) that have one join, of one of the four kinds, and in which what is selected and ordered by is grouped by (if anything is), all sequences of calls describing them, both styles, all databases where expressions without table do not depend on rows (Dollar style: that do not tell apart values that are equal in Go)", "why_tests_cant": "It relates the answers of statements with different texts on all databases, with any conditions, orders and bounds.", "anchors": ["sqlb/query_builder_join.go: From", "sqlb/query_builder_join.go: InnerJoin", "sqlb/query_builder_join.go: LeftJoin", "sqlb/query_builder_join.go: RightJoin", "sqlb/query_builder_join.go: FullJoin", "sqlb/query_builder_build.go: buildFrom"]}
{"id": "C119", "title": "It is irrelevant which column of an ON condition comes first", "statement": "A query whose joins have the two columns of some of their ON conditions exchanged has the same answers.", "quantifier": "for all statements of C47 with readable names (C103), with any number of joins of any kind including optional ones, any of them turned round, all sequences of calls describing them, both styles, all databases whose equality does not depend on the side (Dollar style: that do not tell apart values that are equal in Go)", "why_tests_cant": "It relates the answers of statements with different texts on all databases, for every choice of joins to turn round.", "anchors": ["sqlb/query_builder_join.go: InnerJoin", "sqlb/query_builder_join.go: LeftJoin", "sqlb/query_builder_join.go: LeftJoinOptional", "sqlb/query_builder_join.go: RightJoin", "sqlb/query_builder_join.go: FullJoin", "sqlb/query_builder_build.go: buildFrom"]}
{"id": "C120", "title": "A condition that missing rows do not meet makes an outer join inner", "statement": "With a condition on a column of the joined table that does not hold of missing rows, LeftJoin and LeftJoinOptional give the answers of InnerJoin, and FullJoin those of RightJoin. With such a condition on a column of a table before, RightJoin gives the answers of InnerJoin, and FullJoin those of LeftJoin. A condition that missing rows meet does not do this.", "quantifier": "for all statements of C47 with readable names (C103), with any joins before the one that changes and inner and left joins (optional or not) after it, all conditions, groups, orders and bounds, all sequences of calls describing them, both styles, all databases where the condition does not hold of the value of missing rows (Dollar style: that do not tell apart values that are equal in Go)", "why_tests_cant": "It relates the answers of statements with different texts on all databases, through any number of other joins.", "anchors": ["sqlb/query_builder_join.go: InnerJoin", "sqlb/query_builder_join.go: LeftJoin", "sqlb/query_builder_join.go: LeftJoinOptional", "sqlb/query_builder_join.go: RightJoin", "sqlb/query_builder_join.go: FullJoin", "sqlb/query_builder_build.go: buildFrom"]}
{"id": "C121", "title": "A join that finds one row and that nothing mentions can be left out", "statement": "A query with LeftJoin or LeftJoinOptional of a table that is mentioned by no clause and no later join has the answers of the query without it, Distinct or not, if the join finds at most one row for each row joined before; with InnerJoin, if it finds exactly one. A join that finds more rows changes answers.", "quantifier": "for all statements of C47 with readable names (C103), with any joins of any kind before and after it, all conditions, groups, orders and bounds, all sequences of calls describing them, both styles, all databases where expressions without table do not depend on rows (Dollar style: that do not tell apart values that are equal in Go)", "why_tests_cant": "It relates the answers of statements with different texts on all databases in which the join finds at most one row.", "anchors": ["sqlb/query_builder_join.go: InnerJoin", "sqlb/query_builder_join.go: LeftJoin", "sqlb/query_builder_join.go: LeftJoinOptional", "sqlb/query_builder_build.go: buildFrom"]}
{"id": "C122", "title": "WhereIn and WhereNotIn depend only on which values are given", "statement": "The order and repetition of the values given to WhereIn and WhereNotIn do not change the answers; WhereIn with one value gives the answers of Where2 with =; WhereNotIn gives the answers of one Where2 with <> for each of its values.", "quantifier": "for all statements of C47 with readable names (C103), any number of their conditions exchanged in these ways, all lists of values as ArgsFlatted makes them of one argument (a value, slice or array, one level deep), all sequences of calls describing them, both styles, all databases in which being in a list is being equal to one of its values and not being in it is being different from each (Dollar style: that do not tell apart values that are equal in Go)", "why_tests_cant": "It relates the answers of statements with different texts and different arguments on all databases, for all lists of values.", "anchors": ["sqlb/query_builder_where.go: WhereIn", "sqlb/query_builder_where.go: WhereNotIn", "sqlb/query_builder_where.go: Where2", "util/args.go: ArgsFlatted"]}
{"id": "C123", "title": "Uniting a query repeatedly adds nothing, unless its answers vary", "statement": "If queries unite the same queries, some repeatedly or in another order, executing gives every answer it gives with each united once; and no further ones if all answers of each united query have the same rows, as they do for queries without LIMIT, OFFSET, common table expressions, subqueries and unions. A query with LIMIT 1 united twice can give two rows, united once it cannot.", "quantifier": "for all books of queries as in C106, any number of their queries changed in this way, all sequences of calls describing them, both styles, all engines and tests of subqueries (Dollar style: engines that do not tell apart values that are equal in Go)", "why_tests_cant": "It relates the sets of possible answers of different statements on all databases, for any nesting of queries.", "anchors": ["sqlb/query_builder.go: Union", "sqlb/query_builder_build.go: buildUnion"]}
{"id": "C124", "title": "Distinct and OrderBy in queries that are united change nothing, without bounds", "statement": "Executing gives the same answers with and without Distinct in queries that have unions, or that are used as united queries only, if these have no ORDER BY, LIMIT and OFFSET and the same joins appear; and whatever their ORDER BY, if they have no DISTINCT, LIMIT and OFFSET. With a LIMIT in a united query the answers can differ.", "quantifier": "for all books of queries as in C106, Distinct or orders added or removed in any number of such queries, all sequences of calls describing them, both styles, all engines in which every list can be ordered, and all tests of subqueries (Dollar style: engines that do not tell apart values that are equal in Go)", "why_tests_cant": "It relates the sets of possible answers of different statements on all databases, for any nesting of queries.", "anchors": ["sqlb/query_builder.go: Distinct", "sqlb/query_builder_order.go: buildOrders", "sqlb/query_builder.go: Union", "sqlb/query_builder_build.go: buildUnion", "sqlb/query_builder_build.go: buildSelects"]}
{"id": "C125", "title": "Selecting everything from a common table expression gives the answers of its query", "statement": "A query that names another in With and selects all its columns, without conditions, joins, groups, orders and bounds, gives exactly the answers of the other query executed by itself, in any order.", "quantifier": "for all books of queries as in C106 and all queries in them (with any nesting, DISTINCT, LIMIT, common table expressions, and unions with as many columns) whose column names are different, all names and aliases, all sequences of calls describing them, both styles, all engines in which any list is in order if no order is asked for, and all tests of subqueries (Dollar style: engines that do not tell apart values that are equal in Go)", "why_tests_cant": "It relates the sets of possible answers of different statements on all databases, for any nesting of queries.", "anchors": ["sqlb/query_builder_with.go: With", "sqlb/query_builder_build.go: buildCTEs", "sqlb/query_builder_build.go: buildInternal"]}
{"id": "C126", "title": "Conditions on the columns of a common table expression can be put into its query", "statement": "A query that names another in With and selects all its columns under conditions on these gives exactly the answers of the other query with these conditions added to its own, if the other has no DISTINCT, GROUP BY, ORDER BY, LIMIT, OFFSET and unions. With a LIMIT it need not.", "quantifier": "for all books of queries as in C106, all such queries in them (any joins, common table expressions and subqueries) whose column names are different, any number of conditions made by Where2, WhereIn and WhereNotIn, all names and aliases, all sequences of calls describing them, both styles, all engines in which any list is in order if no order is asked for, and all tests of subqueries (Dollar style: engines that do not tell apart values that are equal in Go)", "why_tests_cant": "It relates the sets of possible answers of different statements on all databases, for any nesting of queries.", "anchors": ["sqlb/query_builder_with.go: With", "sqlb/query_builder_where.go: Where2", "sqlb/query_builder_where.go: WhereIn", "sqlb/query_builder_build.go: buildCTEs", "sqlb/query_builder_build.go: buildInternal"]}
{"id": "C127", "title": "Distinct and OrderBy in subqueries change nothing, without bounds", "statement": "If the tests of subqueries only ask which rows there are, as IN does, executing gives the same answers with and without Distinct or OrderBy also in queries used as subqueries in conditions, under the conditions of C124. With a LIMIT in a subquery the answers can differ.", "quantifier": "for all books of queries as in C106, Distinct or orders added or removed in any number of queries that have unions or are used as subqueries and united queries, all sequences of calls describing them, both styles, all engines in which every list can be ordered, and all tests of subqueries that depend on the set of rows (Dollar style: engines that do not tell apart values that are equal in Go)", "why_tests_cant": "It relates the sets of possible answers of different statements on all databases, for any nesting of queries.", "anchors": ["sqlb/query_builder.go: Distinct", "sqlb/query_builder_where.go: Where", "sqlb/query_builder_order.go: buildOrders", "sqlb/query_builder_build.go: buildSelects"]}
{"id": "C128", "title": "The order of independent common table expressions does not matter", "statement": "Executing gives the same answers if common table expressions that do not read each other are declared in another order, in any number of queries; the arguments are reordered with them. A common table expression declared before one it reads can give other answers, even if that one is among its dependencies.", "quantifier": "for all books of queries as in C106, all reorderings by swapping neighbours of which neither reads the other, all sequences of calls describing them, both styles, all engines and tests of subqueries (Dollar style: engines that do not tell apart values that are equal in Go)", "why_tests_cant": "It relates the sets of possible answers of different statements on all databases, for any number of common table expressions and any nesting.", "anchors": ["sqlb/query_builder_with.go: With", "sqlb/query_builder_build.go: buildCTEs"]}
