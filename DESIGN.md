# Formal model of go-sqlf

Target: `/repo` (github.com/qjebbs/go-sqlf/v2), read as text. Everything below is in
Rocq/Coq 8.16.1, directory `rocq/theories`, logical name `Verif`.

## Layout

| file | content |
|------|---------|
| `GoStr.v` | Go strings as byte strings: UTF-8 decoding, `unicode.IsSpace`, `TrimSpace`, `Itoa`, `ParseUint` |
| `GoNum.v` | `strconv.ParseFloat`, float to int conversion (stdlib `SpecFloat`, no axioms) |
| `Syntax.v` | package `syntax`: lexer, scanner, parser, rune by rune |
| `Value.v` | Go values in `any`, `==`, hashability, errors, outcomes |
| `Util.v`, `Scan.v` | package `util` |
| `Model.v` | data types of `sqlf` and `sqlb`: builders, user code, query builders, contexts |
| `Sqlf.v` | package `sqlf`: argument stores, functions, `#join`, fragments |
| `Sqlb.v` | package `sqlb` and `BuildQuery` |
| `Spec*.v` | small specifications the theorems are stated with |
| `Spec_syntax.v` | template parts, their printer and meaning; source forms of expressions |
| `RefSem.v` | a reference semantics of building that returns text with symbolic placeholders |
| `Spec_build.v`, `Spec_eval.v`, `Spec_util.v`, `Spec_query.v`, `Spec_term.v`, `Spec_base.v`, `Spec_mean.v` | relations and predicates used by the theorems about building, evaluation, util, query builders, termination, the primitives and what placeholders stand for |
| `Replay.v` | the repository's own tests and examples replayed on the model (what the Go tests expect is checked by computation) |
| `Spec_sql.v` | small SELECT statements, their text, and the calls that describe them |
| `Ptr.v` | model: fragments as objects, slices, the methods of fragment.go, builder calls with pointers |
| `Spec_ptr.v` | what references lead to and stand for, slice contents, what appending may touch |
| `Props.v` | model: the properties of properties.go and property.go, functions backed by them |
| `Table.v`, `Spec_table.v` | model: the remaining methods of tables and columns; quoted identifiers |
| `Spec_interp.v` | placeholders kept apart from the text around them |
| `Spec_nest.v` | queries numbered and referring to each other: their text, their arguments, the common table expressions that appear |
| `Spec_grammar.v` | the grammar of templates as rules |
| `Spec_answer.v` | databases and the answers of SELECT statements (spec only: no SQL engine is modelled by the library) |
| `Spec_required.v` | lists of calls that differ only in which joins are optional |
| `Register.v` | model of createValueFuncs, addValueFuncs, ContextWithFuncs for maps with values of any type |
| `Spec_register.v` | which values of a FuncMap can be registered |
| `Spec_swap.v` | when two builders cannot be told apart; builders, query builders and calls that differ in such pairs |
| `Spec_debug.v`, `Spec_tidy.v` | builders without Debug(); texts Interpolate panics on; templates whose texts never do |
| `Spec_frame.v` | what a builder can reach; heaps that agree on a set of query builders |
| `Spec_user.v` | custom builders that call BuildQuery themselves |
| `Spec_blame.v` | what each error text claims |
| `Spec_sound.v` | what it means to have no defects |
| `Spec_fault.v` | the syntax errors of templates: place and message |
| `Spec_intact.v` | texts whose parentheses and quotes are closed, builders made of such texts |
| `Spec_insert.v` | arguments without a literal, expressions that cannot be replaced and the text of their errors |
| `Spec_renumber.v` | arguments and fragments in another order, templates with changed numbers |
| `Spec_again.v` | numbers of the bind variables of a template, in order, all arguments mentioned |
| `Letters.v` | the letters of Unicode 15.0 as ranges (unicode.IsLetter) |
| `Spec_utf8.v` | UTF-8 as an encoder, the letters up to U+024F written out, identifiers |
| `Spec_exact.v` | trees whose indexes and ranges exist, the values of a tree |
| `Printable.v` | the printable characters of Unicode 15.0 as ranges (strconv.IsPrint) |
| `Quote.v` | strconv.Quote (`%q`) |
| `Spec_quote.v` | quoted texts as a relation |
| `Time.v` | time.Time.Round, Format with any layout, the options of Interpolate |
| `Spec_time.v` | the calendar day by day, clocks, RFC 3339 texts |
| `Spec_layout.v` | the elements of layouts, what they show, how a layout is read |
| `Spec_views.v` | answers of nested statements: common table expressions, subqueries, unions; tables read |
| `Spec_steps.v` | step semantics of templates: parts, templates, rounds of #join; functions #join accepts |
| `Convert.v` | conversion of numbers to parameter types (reflect.Value.Convert as used by evalArg, func_exec.go:114-119), functions with number parameters |
| `Spec_convert.v` | the integer meant by a number, fitting into a type, items reachable by an index type |
| `Spec_keep.v` | which tables and common table expressions a query keeps, in all cases |
| `Spec_rules.v` | the rules of the whole library |
| `Spec_sqltok.v` | a reader of SQL text, the tokens of values |
| `Spec_read.v` | a reader of SELECT statements, what a statement is read as |
| `Spec_nread.v` | a reader of statements of several queries, what a tree of queries is read as |
| `Spec_exec.v` | an engine that executes the text of a SELECT with its arguments |
| `Spec_nexec.v` | the same for statements of several queries |
| `Spec_sqlgram.v` | which statements are in the grammar of SQL |
| `Spec_pages.v` | the answers of a statement page by page |
| `Spec_fetch.v` | the database behind Scan and Count |
| `Spec_narrow.v` | statements that differ in their conditions |
| `Spec_bool.v` | what conditions with NOT, AND, OR and parentheses mean |
| `Spec_pick.v` | statements that differ in what they select or order by |
| `Spec_shuffle.v` | statements of several queries in another order |
| `Spec_alias.v` | statements whose tables are known by other names |
| `Spec_dedup.v` | a statement with and without Distinct |
| `Spec_regroup.v` | statements that differ in what they group by |
| `Spec_joinorder.v` | statements whose joins come in another order |
| `Spec_sides.v` | statements whose two tables change sides |
| `Spec_turned.v` | statements whose ON conditions are turned round |
| `Spec_nonnull.v` | outer joins whose missing rows are refused by a condition |
| `Spec_spare.v` | joins that can be left out |
| `Spec_inlist.v` | conditions that say the same about lists of values |
| `Spec_reunite.v` | queries that unite a query repeatedly |
| `Spec_undistinct.v` | queries that differ in Distinct or orders |
| `Spec_inline.v` | selecting everything from a common table expression |
| `Spec_pushdown.v` | conditions on the columns of a common table expression |
| `Spec_insub.v` | subqueries of which only the set of rows counts |
| `Spec_cteorder.v` | common table expressions in another order |
| `Spec_pos.v` | characters, lines and columns of a template |
| `*_proofs.v` | lemmas |
| `Prop_*.v` | the property theorems only, each closed by `exact`, with `Print Assumptions` and an example |

## Modelling choices

* A Go string is a Coq `string` (bytes); a rune is an `N`. The lexer is modelled with its
  quirks (rune 0 is EOF, the phantom RuneError at the end of input).
* A call returns `ROk`/`RErr`/`RPanic`/`RFuel`. Loops that are not structural use fuel; `RFuel`
  and `PFuel` are model artefacts and the theorems show when they cannot occur (C01, C30) and that
  fuel never changes a result.
* User code (custom `FragmentBuilder`s and functions) is a free monad `prog` over the API of
  `*Context`: commit an argument, read `Args()`, build something with this context or with one
  derived by `ContextWithFuncs`, run a part with a context of its own (`NewContext`, `BuildQuery`), go on
  after an error or a recovered panic, return, panic. Theorems about "any user code" quantify over `prog`.
* `*Fragment` values are finite trees (no cycles; sharing is copying, sound because building does
  not mutate fragments). `*QueryBuilder` values live in a heap because building mutates them.
* An error (`err`) is a tree of the `fmt.Errorf` calls that made it; `err_text` prints it. The texts are
  those of the Go code except: Go type names are kinds (`type_text`), the position of a stray function
  value is left out, and the texts of run-time and `reflect` panics are short stand-ins.

Not modelled: log output of debug mode, the database of time zones (a function from location and instant to
abbreviation and offset is given), instants outside Go's range of seconds, the
SQL database (abstract), goroutines, memory limits, integer overflow of the `#join` counter,
user code that keeps a context beyond its call (custom builders and
functions use the one they are given and those they make), user code that calls the describing methods
of query builders during a build. The
compatibility mark of a joined function (func.go:69-76) is recomputed instead of cached; this cannot be
seen unless the function builds query builders (`c34_cached`, `c34_cached_refuted`). In the tree
model (everything but `Ptr.v`) the mutation of the caller's `on` fragment by joins and cyclic fragments
are absent; `Ptr.v` models them, with fragments as objects on a heap and Go slices. There the heap does
not change while something is built, and nested query builders are still trees.

## Trusted base

The Coq 8.16.1 kernel (and `vm_compute`), the model files above being faithful to the Go source
(among them the tables of the letters and of the printable characters of Unicode 15.0 in `Letters.v` and
`Printable.v`, `strconv.Quote` in `Quote.v`, `time.Time.Round` and `Format` in `Time.v`, and `reflect.Value.Convert` for numbers in `Convert.v`; older Go releases have older tables),
and the statements in `Spec*.v`/`Prop_*.v`. No axioms are declared; every `Print Assumptions` in the
`Prop_*` files is expected to report "Closed under the global context". Any standard library axiom
that shows up is listed here: none. (Loading the standard library's `lia` brings the opaque constants
of `Coq.ssr.ssrunder.Under_rel` into scope, which `vcheck` lists; no theorem depends on them.)

## Properties

Per property: what is modelled and how it is proved. "refuted" = the claim is false of the faithful
model, proved with a concrete witness theorem `..._refuted`, with the true part stated beside it.

| id | plan |
|----|------|
| C01 | scanner and parser with fuel; measure argument that fuel suffices, every string literal token has two quotes |
| C02 | scanner equals a structural byte-level scanner on plain text; induction over the string |
| C03 | every successful parse of a NUL-free input is the print of a list of parts; NUL case refuted |
| C04 | induction over the quoted body |
| C05 | induction over the list of doubled markers |
| C06 | parser invariant on the variable counter |
| C07 | decimal round trip and scanner on digits |
| C08 | refuted by `$1,?`; the accepted texts are those of the grammar (C75) without `$n` after `?` |
| C09 | token streams of both forms compared |
| C10 | scanner + parser on `#` followed by a non-letter |
| C11 | quote doubling round trip through the scanner |
| C12 | print/parse round trip over lists of parts, by induction |
| C13 | refuted by computation, with the general form of the wrong results |
| C14, C15, C17, C18 | style independent token semantics of the evaluator; simulation proof; `means` (Spec_mean.v) says declaratively what a builder may expand to, query builders included |
| C16 | invariant of the dollar store over commit sequences |
| C19 | induction over fuel for arbitrary user code |
| C20 | refuted; panic freedom under explicit conditions |
| C21 | direct |
| C22, C23 | usage flags invariant; a child that always fails must make the build fail |
| C24 | from the token semantics |
| C25, C26, C28 | induction over the join loop |
| C27 | refuted; errors other than ErrInvalidIndex propagate |
| C29 | direct |
| C30 | Rank of query builders: a builder contains only builders of lower rank; bounded functions. The necessity of the conditions is proved too |
| C31, C32, C33, C34 | direct, over arbitrary functions |
| C35 | relation `assembled` (clauses built one after the other) and printer `layout`, equivalent to the build function |
| C36 | refuted by computation |
| C37, C38, C39 | reachability specification over table graphs; refuted parts by computation |
| C40, C41, C42, C45, C47, C48 | refuted by computation, true part proved |
| C43, C44, C46 | induction over the call sequence |
| C49 | direct | 
| C50, C51, C52 | via the parser theorems |
| C53, C54, C55 | direct over an abstract database |
| C56 | from the general theorem on joined children (C27) |
| C57, C58 | induction over the call sequence, per field |
| C59 | direct, invariant of From and joins |
| C60 | preservation principle for builds with arbitrary user code |
| C61 | print/parse round trip of the templates, evaluation of their references |
| C62 | case analysis of the UTF-8 decoder on both ends of a string; the stdlib's decimal conversions |
| C63 | types of the parameters by position, first argument that does not fit |
| C64 | case analysis of signatures |
| C65 | invariant of the lexer (text read so far, its characters), relation between a template and its token stream, induction over the parser |
| C66 | the builder's fields from the calls (C57), all tables known, the joins kept exactly those that appear in the statement, each clause built by the clause lemmas, no text to trim |
| C67 | the evaluator depends on children only through their builds (congruence); unfolding to depth n suffices for fuel n; rank induction; cycles by induction over fuel |
| C68 | trees are preserved on everything that does not reach the object; a finite tree does not reach itself |
| C69 | the heap after the calls differs from the first one only in prefixes of ON fragments; refuted by computation |
| C70 | slices as array, offset, length, capacity; append in place or in a new array; refuted by computation |
| C71 | the functions pass the test of `#join`, which tries them with index 0; the join lemmas for any such function; the store only grows |
| C72 | names as lists of inert parts, a quoted identifier is a row of quoted texts; losslessness of the parser for arbitrary names; refuted for `?` and `#f1` |
| C73 | the text of C14/C15 or of C66 as a list of template parts, then C54; refuted by the argument order of C36 and by -0 |
| C74 | C66 with common table expressions, subqueries and unions; induction on the nesting depth, the heap changing only at the queries with DISTINCT and ORDER BY |
| C75 | rules derive what the parser returns (induction on the derivation) and the parser returns only what the rules derive (induction on the length of the text) |
| C76 | the rows after every join agree on the tables that appear; a left join keeps every row at least once; kept joins and clauses look at tables that appear only |
| C77 | relation between heaps whose builders differ in the optional flags of builders without DISTINCT; the generic relation proof of C40 |
| C78 | the loop stops at the first entry at fault; association lists without repeated keys under permutation |
| C79 | simulation of the build on both sides with fuel that may differ; `mono_build` joins the two amounts |
| C80, `c73_tidy` | simulation of the build with and without Debug(); the meaning (`means`) of the flagged builder describes the text that is interpolated; induction over meanings shows that tidy templates give clean texts |
| C81, `c34_cached` | simulation of two builds in heaps that agree on the set, over all builders and user code (`fr_build`); the set stays closed because hidden columns hold columns of the same builder |
| C82 | both builds replay the same log of commits (`build_general`); committing the stored arguments again gives the same store (`replay_added`) |
| C83 | induction over the build with the defects as mutually inductive predicates (`blame_any`); the query builders at the time of failure have only grown (`grows_build`) |
| C84 | mutual induction over the absence of defects (`sound_buildable`); loops of #join by counting down the range; query builders by showing that what building changes keeps them free of defects (`fit_grown`) |
| C85 | offsets of tokens by following what the scanner reads (`scan_all_chain`); a version of the parser that returns the rest at the error (`loop_error`); every text is a part that passes, a part that is wrong, or has no error (`template_cases`) |
| C86 | reading a text as a state machine of open parentheses and quotes, equal to the inductive definition (`enclosed_iff`); invariant over all builds (`build_fine`) |
| C87 | first expression that is not replaced (`exprs_error`); the position carried by a function is the place of its `#` (`declines_refuses`) |
| C88 | simulation of the two builds, flags of used items related by the renumbering (`build_sim`) |
| C89 | parse of the rendered text as parts, commits replayed (`build_template`, `commit_ordered`) |
| C90 | base-64 digits of a code point, forms of one to four bytes (`utf8_form`, `decode_cases`), induction on the name |
| C91 | induction on the fuel, join depth and rounds: an invalid index only ever comes from a list that is too short, and a flag is only set for an item that was built |
| C92 | the model computes the relation (runes one by one); the relation is a prefix code, hence injective; names via the grammar of C75 |
| C93 | one cycle of 400 years by computation, the others by shifting; texts of fixed width are read back from the right; elements of a layout one by one |
| C94 | reading: whatever stands at a place, the model reads something at least as long, and what it reads stands there; showing: one lemma per element; the day of the year by one cycle of 400 years |
| C95 | answers depend only on the tables that are read (`coincide`, on the statement as built); every statement has an answer, also the expressions left out (`answer_exists`); induction on the depth with C76 for each query |
| C96 | soundness by induction on the model's fuel (`clause_n_sound`), completeness by mutual induction on the rules with the monotonicity of fuel (`complete`); indices used lie inside (`used_inside`), so the flags of use are `covers` |
| C97 | the lowest bits are the unique value of the type congruent to the integer (`low_bits_fitted`, `fitted_same`); #join through the step rules of C96, its last round being the first index that wraps or misses (`cut_join`) |
| C98 | the set collected is that of the tables in use plus what is reached around them (`cte_avoids`, `loop_all`); the order of the tables does not matter because a table kept for its name alone starts no search |
| C99 | soundness by induction on the bound, with the query as a series of jobs (`internal_series`); completeness by mutual induction on the rules into the steps of C96 |
| C100 | `feed` over appended texts; each literal leaves the reader where a separating character ends exactly its token (`value_reads`), then induction on the parsed pieces |
| C101 | the tokens of each clause are computed from the text of `sql`, the reader's splitting is inverted clause by clause (`read_stmt`); `said` is injective up to `same_stmt` (`said_same`) |
| C102 | C73 gives the text as `sql m` of the literals, C100 the tokens of each literal; `read_stmt` is proved for any operands, placeholders or literals |
| C103 | tokens are paired into trees by their parentheses, each parenthesised query is replaced by its outline and read by the reader of C101 with conditions over subqueries (`clauses_read`, `read_text`, by induction on the depth); equal readings give equal trees (`statement_same`) |
| C104 | by induction on the depth the text of a tree of queries is a clean template whose placeholders are numbered in order (`statement_gives`), then as C73; read by `read_text`, compared by `statement_same` |
| C105 | the reading of C101 has the statement as its meaning (`meaning_said`); the placeholders get the values of the conditions (`question_values`, `dollar_values`, `literal_values`); `executed`; C76 for the optional joins |
| C106 | by induction on the depth, the run of the reading of C103 is the answer of C95's semantics and counts the question marks of the operands (`statement_run`, `withs_run`, `conds_run`, `unions_run`); C95 for what does not appear |
| C107 | the reading of C103 is grammatical iff every query of the tree is (`grammatical_said`), by induction on the depth |
| C108 | `cut` with the two bounds is a page (`cut_page`); a sorted permutation is unique if the order is antisymmetric on the rows (`sorted_unique`) |
| C109 | the rows of C105 begin with the selected values (`answer_width`), Scan by `scan_iff`; the text of Count is tokenised around that of the statement (`counted_tokens`) and read by C103 |
| C110 | statements with the same conditions show the same joins (`shown_same`); with further conditions the rows are filtered (`where_more`), C76 for the joins |
| C111 | the joined text pairs up to the joined trees (`mid_paired`); truth of joined trees is the conjunction without top-level OR (`truth_and`), a disjunction with it (`truth_or`) |
| C112 | answers are images of permutations of the same groups of rows (`sources`) |
| C113 | answers of rearranged books by induction on the depth (`answer_shuffled`); the conditions of C106 carry over (`once_same`, `complete_same`) |
| C114 | rows known by old and new names correspond (`alike`) through joins, conditions, groups and results; injectivity from the distinct names of the renamed statement |
| C115 | the joins with and without Distinct give the same results (`trimmed_results`, `distinct_results`); rows of equal width stay different (`app_parts`) |
| C116 | groups depend on the set of columns only (`groups_set`); groups differ in their keys (`groups_apart`), so the results of the grouped statement come once each (`grouped_once`) |
| C117 | rows up to order and pointwise equality (`moved`); products of choices commute (`flat_product`, `joins_swap`); groups by the set of their keys (`moved_results`) |
| C118 | pairs of rows counted from either side (`pairs_swap`), rows without partner as strangers (`here_null`, `strangers_sides`), then `moved_results` of C117 |
| C119 | the rows of every join are the same (`turned_rows`), also of those that appear (`turned_shown`) |
| C120 | the rows that differ lack the table (`narrowed_thinned`), later joins keep them so (`joins_missing`), the condition removes them (`thinned_joins`) |
| C121 | one row each (`one_each`), which agree but for the table (`but_joins`, `but_groups`, `but_results`) |
| C122 | conditions met by the same rows (`alike_met`), then the same results (`alike_results`) |
| C123 | answers by induction on the nesting (`answer_repeats`, `answer_repeated`); plain unions have one set of rows (`settled_plain`) |
| C124 | answers with the same rows (`answer_free`), which unions make the same answers (`together_alike`) |
| C125 | rows as wide as the names (`answer_width`), looked up by name (`named_all`); then the results are the rows (`all_answers`) |
| C126 | answers of plain queries are the selected rows that pass (`plain_answer`); conditions by name are conditions by column (`named_col`, `push_answers`) |
| C127 | as C124, with tests that agree on all values (`answers_same`, `answer_within`) |
| C128 | swapped bindings give the same tables (`tables_moved`), what is read does not change (`reads_moved`), then `coincide` of C95 |
