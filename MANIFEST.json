{
 "claims": [
  {
   "property": "C01",
   "status": "proved",
   "theorems": [
    "c01_parse_total"
   ],
   "note": "for all byte strings"
  },
  {
   "property": "C02",
   "status": "proved",
   "theorems": [
    "c02_plain_text"
   ],
   "note": "at the level of the whole query, every style"
  },
  {
   "property": "C03",
   "status": "proved",
   "theorems": [
    "c03_lossless",
    "c03_nul_refuted",
    "c03_nul_truncates"
   ],
   "note": "proved for NUL-free templates; the NUL exception is refuted by witness and characterised exactly"
  },
  {
   "property": "C04",
   "status": "proved",
   "theorems": [
    "c04_quoted_inert",
    "c04_quoted_verbatim"
   ],
   "note": "whole templates of inert parts, and insertion of an inert part anywhere in a template"
  },
  {
   "property": "C05",
   "status": "proved",
   "theorems": [
    "c05_doubled"
   ],
   "note": ""
  },
  {
   "property": "C06",
   "status": "proved",
   "theorems": [
    "c06_question_ordinals"
   ],
   "note": "parser level, for templates written from parts"
  },
  {
   "property": "C07",
   "status": "proved",
   "theorems": [
    "c07_bad_dollar_rejected",
    "c07_big_dollar_rejected",
    "c07_dollar_indexes"
   ],
   "note": "positive and rejection theorems; indices above maxint wrap (c07_wraps)"
  },
  {
   "property": "C08",
   "status": "proved",
   "theorems": [
    "c08_mixed_refuted",
    "c08_mixed_rejected",
    "c08_parts_rejected",
    "c08_styles"
   ],
   "note": "the expected claim is refuted by witness (a ? after $n is accepted); the parser accepts exactly the texts of the grammar in which no $n comes after a ?, and rejects the mixed ones in which one does"
  },
  {
   "property": "C09",
   "status": "proved",
   "theorems": [
    "c09_indexed_is_call"
   ],
   "note": "for every digit string, after any parts"
  },
  {
   "property": "C10",
   "status": "proved",
   "theorems": [
    "c10_after_function_value_refuted",
    "c10_bare_hash_rejected"
   ],
   "note": "proved after any parts that may precede a #; refuted directly after a function value"
  },
  {
   "property": "C11",
   "status": "proved",
   "theorems": [
    "c11_string_argument"
   ],
   "note": ""
  },
  {
   "property": "C12",
   "status": "proved",
   "theorems": [
    "c12_roundtrip"
   ],
   "note": "up to merging adjacent texts"
  },
  {
   "property": "C13",
   "status": "proved",
   "theorems": [
    "c13_function_then_call_refuted",
    "c13_function_then_dollar_refuted",
    "c13_function_then_question_refuted"
   ],
   "note": "the claim is false: proved false for all names (syntax errors) and for ? (becomes text)"
  },
  {
   "property": "C14",
   "status": "proved",
   "theorems": [
    "c14_question_order"
   ],
   "note": "for all trees, order with the condition that every committed argument is shown (a #join may drop a placeholder after committing, see C27); for query builders that ? number j stands for args[j] in the commit order"
  },
  {
   "property": "C15",
   "status": "proved",
   "theorems": [
    "c15_dollar_values"
   ],
   "note": "for fragments, columns, tables and query builders referring to each other; the meaning of a query is the declarative relation means of Spec_mean.v"
  },
  {
   "property": "C16",
   "status": "proved",
   "theorems": [
    "c16_dedup",
    "c16_equal",
    "c16_equality",
    "c16_unhashable"
   ],
   "note": "for all sequences of hashable values"
  },
  {
   "property": "C17",
   "status": "proved",
   "theorems": [
    "c17_styles_agree"
   ],
   "note": "for all library-built trees and query builders (debug mode off) with hashable arguments"
  },
  {
   "property": "C18",
   "status": "proved",
   "theorems": [
    "c18_dollar",
    "c18_merged_refuted",
    "c18_values_inert"
   ],
   "note": "for all library-built trees and query builders; Question style with any replacement, Dollar style with replacements that preserve which values are equal"
  },
  {
   "property": "C19",
   "status": "proved",
   "theorems": [
    "c19_args_grow"
   ],
   "note": "for all builders including arbitrary user code"
  },
  {
   "property": "C20",
   "status": "proved",
   "theorems": [
    "c20_fragment_panics",
    "c20_no_panic_refuted"
   ],
   "note": "false as stated: three panicking builds (refuted); proved which fragments can panic at all"
  },
  {
   "property": "C21",
   "status": "proved",
   "theorems": [
    "c21_body_trimmed",
    "c21_nil",
    "c21_prefix_suffix"
   ],
   "note": ""
  },
  {
   "property": "C22",
   "status": "proved",
   "theorems": [
    "c22_args_used",
    "c22_committed_dollar",
    "c22_committed_question",
    "c22_marked",
    "c22_unreached_fails"
   ],
   "note": "for all functions and contexts; committed values appear in the arguments"
  },
  {
   "property": "C23",
   "status": "proved",
   "theorems": [
    "c23_frags_built",
    "c23_unreached_fails"
   ],
   "note": "built means the child's builder was run in the fragment's context and did not fail (or failed with an invalid index inside a #join, see C27)"
  },
  {
   "property": "C24",
   "status": "proved",
   "theorems": [
    "c24_local",
    "c24_sound"
   ],
   "note": "for all library-built trees and query builders, any sound store, both styles"
  },
  {
   "property": "C25",
   "status": "proved",
   "theorems": [
    "c25_join_args",
    "c25_join_args_question",
    "c25_join_fragments"
   ],
   "note": "a fragment whose template is the join; c26_range_* give the same for a join anywhere"
  },
  {
   "property": "C26",
   "status": "proved",
   "theorems": [
    "c26_range_args",
    "c26_range_checked",
    "c26_range_error",
    "c26_range_fragments"
   ],
   "note": "exact result within range; failure beyond for any template and any surroundings"
  },
  {
   "property": "C27",
   "status": "proved",
   "theorems": [
    "c27_by_index",
    "c27_child_error",
    "c27_child_error_refuted"
   ],
   "note": "false as stated: general refutation (last child failing with an invalid index is dropped); proved for all other failures"
  },
  {
   "property": "C28",
   "status": "proved",
   "theorems": [
    "c28_zip",
    "c28_zip_lengths",
    "c28_zip_refuted"
   ],
   "note": "false as stated: exactly one surplus fragment is dropped (refuted in general); every other difference fails"
  },
  {
   "property": "C29",
   "status": "proved",
   "theorems": [
    "c29_dangling",
    "c29_in_range"
   ],
   "note": ""
  },
  {
   "property": "C30",
   "status": "proved",
   "theorems": [
    "c30_acyclic_kept",
    "c30_cyclic_refuted",
    "c30_described",
    "c30_fuel_irrelevant",
    "c30_query_terminates",
    "c30_recursive_refuted",
    "c30_terminates",
    "c30_unbounded_refuted"
   ],
   "note": "The conditions are stated in Spec_term.v (acyclic, bounded_env, below); that each is needed is c30_unbounded_refuted, c30_recursive_refuted, c30_cyclic_refuted. Time is the fuel of the model: the recursion depth of builders, the nesting of clauses and the number of iterations of one #join."
  },
  {
   "property": "C31",
   "status": "proved",
   "theorems": [
    "c31_arity",
    "c31_bad_call_fails",
    "c31_bad_call_inert",
    "c31_innermost"
   ],
   "note": ""
  },
  {
   "property": "C32",
   "status": "proved",
   "theorems": [
    "c32_accepted_refuted",
    "c32_callable",
    "c32_called",
    "c32_names",
    "c32_only_ascii"
   ],
   "note": "false as stated for non-ASCII names (refuted, and no template can call them); proved for ASCII names"
  },
  {
   "property": "C33",
   "status": "proved",
   "theorems": [
    "c33_called_panic"
   ],
   "note": ""
  },
  {
   "property": "C34",
   "status": "proved",
   "theorems": [
    "c34_cached",
    "c34_cached_refuted",
    "c34_prep_no_effect",
    "c34_refused_no_effect",
    "c34_test_independent"
   ],
   "note": "user code can still change the heap of query builders it builds during the test"
  },
  {
   "property": "C35",
   "status": "proved",
   "theorems": [
    "c35_builds",
    "c35_clauses",
    "c35_described"
   ],
   "note": "decomposition of every successful build, and the converse"
  },
  {
   "property": "C36",
   "status": "proved",
   "theorems": [
    "c36_argument_order_refuted",
    "c15_dollar_values"
   ],
   "note": "the expected claim is refuted for all values"
  },
  {
   "property": "C37",
   "status": "proved",
   "theorems": [
    "c37_joins",
    "c37_unneeded_kept_refuted"
   ],
   "note": "exact if no unaliased table is named like a CTE; otherwise refuted by witness"
  },
  {
   "property": "C38",
   "status": "proved",
   "theorems": [
    "c38_closed_refuted",
    "c38_needed_kept",
    "c38_optional"
   ],
   "note": "the expected claim is refuted by witness; closure for what clauses and optional joins need is proved"
  },
  {
   "property": "C39",
   "status": "proved",
   "theorems": [
    "c39_ctes",
    "c39_lost_refuted"
   ],
   "note": "exact if no unaliased table is named like a CTE; otherwise refuted by witness"
  },
  {
   "property": "C40",
   "status": "proved",
   "theorems": [
    "c40_leaves",
    "c40_rebuild_refuted",
    "c40_steady"
   ],
   "note": "the expected claim is refuted by witness; idempotence without DISTINCT+ORDER BY, for any heap and user code"
  },
  {
   "property": "C41",
   "status": "proved",
   "theorems": [
    "c41_dropped_refuted",
    "c41_later_builds",
    "c41_words"
   ],
   "note": "the expected claim is refuted by witness; later builds fail, for all"
  },
  {
   "property": "C42",
   "status": "proved",
   "theorems": [
    "c42_cross_join_refuted",
    "c42_nil_condition"
   ],
   "note": "the expected claim is refuted for all tables and builders"
  },
  {
   "property": "C43",
   "status": "proved",
   "theorems": [
    "c43_undefined"
   ],
   "note": "error for every needed undefined table; the converse is in C35"
  },
  {
   "property": "C44",
   "status": "proved",
   "theorems": [
    "c44_empty_name"
   ],
   "note": "for all call sequences and all later builds"
  },
  {
   "property": "C45",
   "status": "proved",
   "theorems": [
    "c45_no_from",
    "c45_no_table_refuted"
   ],
   "note": "the expected claim is refuted for all call sequences"
  },
  {
   "property": "C46",
   "status": "proved",
   "theorems": [
    "c46_limits"
   ],
   "note": "for all call sequences"
  },
  {
   "property": "C47",
   "status": "proved",
   "theorems": [
    "c47_all_empty_refuted",
    "c47_unions"
   ],
   "note": "second part refuted in general"
  },
  {
   "property": "C48",
   "status": "proved",
   "theorems": [
    "c48_stale_refuted"
   ],
   "note": "the expected claim is refuted for all pairs of tables"
  },
  {
   "property": "C49",
   "status": "proved",
   "theorems": [
    "c49_flattened",
    "c49_nil_pointer_refuted",
    "c49_panics",
    "c49_total"
   ],
   "note": "iff characterisation, plus exact panic condition"
  },
  {
   "property": "C50",
   "status": "proved",
   "theorems": [
    "c50_float",
    "c50_literal",
    "c50_parts",
    "c50_pieces"
   ],
   "note": "iff characterisation, for arbitrary NUL-free queries and for queries written from parts; literals incl. exact float rounding"
  },
  {
   "property": "C51",
   "status": "proved",
   "theorems": [
    "c51_count_refuted",
    "c51_error_refuted",
    "c51_methods",
    "c51_panics"
   ],
   "note": "the expected claim is refuted; exact panic condition proved"
  },
  {
   "property": "C52",
   "status": "proved",
   "theorems": [
    "c52_inert",
    "c52_injective",
    "c52_interpolate_again",
    "c52_interpolated_inert",
    "c52_literal_inert",
    "c52_nul_refuted"
   ],
   "note": "strings, all literals and whole interpolated queries; the NUL exception is refuted by witness"
  },
  {
   "property": "C53",
   "status": "proved",
   "theorems": [
    "c53_blind",
    "c53_reported_refuted"
   ],
   "note": "the expected claim is refuted; independence of rows.Err() proved for all databases"
  },
  {
   "property": "C54",
   "status": "proved",
   "theorems": [
    "c54_first_failure",
    "c54_rows",
    "c54_scan_builder",
    "c54_too_few_columns"
   ],
   "note": "over an abstract database and row conversion"
  },
  {
   "property": "C55",
   "status": "proved",
   "theorems": [
    "c55_count",
    "c55_count_builder",
    "c55_error",
    "c55_no_rows"
   ],
   "note": "over an abstract database"
  },
  {
   "property": "C56",
   "status": "proved",
   "theorems": [
    "c56_dropped_refuted",
    "c56_fails"
   ],
   "note": "the expected claim is refuted in general; the other failures are proved to propagate"
  },
  {
   "property": "C57",
   "status": "proved",
   "theorems": [
    "c57_accumulate"
   ],
   "note": "for all call sequences"
  },
  {
   "property": "C58",
   "status": "proved",
   "theorems": [
    "c58_interleaving"
   ],
   "note": "for all pairs of call sequences"
  },
  {
   "property": "C59",
   "status": "proved",
   "theorems": [
    "c59_from",
    "c59_known",
    "c59_lost_refuted",
    "c59_new"
   ],
   "note": "complete description of the table list; the expected claim is refuted in general"
  },
  {
   "property": "C60",
   "status": "proved",
   "theorems": [
    "c60_evolves"
   ],
   "note": "for all builders including arbitrary user code"
  },
  {
   "property": "C61",
   "status": "proved",
   "theorems": [
    "c61_clause",
    "c61_column",
    "c61_hidden",
    "c61_join",
    "c61_main",
    "c61_order",
    "c61_where2",
    "c61_where_in"
   ],
   "note": "for names without special characters"
  },
  {
   "property": "C62",
   "status": "proved",
   "theorems": [
    "c62_decimal",
    "c62_double",
    "c62_halve",
    "c62_join",
    "c62_negative",
    "c62_parse",
    "c62_trim"
   ],
   "note": "the standard library functions are part of the model's trusted base; this shows the model meets an independent specification"
  },
  {
   "property": "C63",
   "status": "proved",
   "theorems": [
    "c63_checked",
    "c63_number_refuted"
   ],
   "note": "the expected claim is refuted for numbers; the rest is proved"
  },
  {
   "property": "C64",
   "status": "proved",
   "theorems": [
    "c64_refused",
    "c64_registrable"
   ],
   "note": "for ASCII names; other letters are accepted too (C32)"
  },
  {
   "property": "C65",
   "status": "proved",
   "theorems": [
    "c65_error_offset",
    "c65_line_break_refuted",
    "c65_one_line",
    "c65_positions"
   ],
   "note": "positions for templates without NUL; that a text starting with a line break has its place is refuted; error offsets for all strings"
  },
  {
   "property": "C66",
   "status": "proved",
   "theorems": [
    "c66_dollar",
    "c66_question"
   ],
   "note": "statements without common table expressions, unions and subqueries; the dollar style for hashable values"
  },
  {
   "property": "C67",
   "status": "proved",
   "theorems": [
    "c67_column_compositional",
    "c67_compositional",
    "c67_cycle_refuted",
    "c67_depth",
    "c67_one_tree",
    "c67_sharing",
    "c67_terminates",
    "c67_tree"
   ],
   "note": "heaps that user code does not change during the build; termination for bounded functions; cycles: builtin functions, self reference at the beginning of the template"
  },
  {
   "property": "C68",
   "status": "proved",
   "theorems": [
    "c68_args",
    "c68_frags",
    "c68_holder",
    "c68_local",
    "c68_nil",
    "c68_prefix",
    "c68_suffix"
   ],
   "note": "trees before and after; objects allocated"
  },
  {
   "property": "C69",
   "status": "proved",
   "theorems": [
    "c69_adequate",
    "c69_final",
    "c69_marks",
    "c69_overwrite_refuted",
    "c69_reuse_refuted",
    "c69_trees"
   ],
   "note": "adequate when the ON fragments are used for nothing else; reuse refuted with the resulting text"
  },
  {
   "property": "C70",
   "status": "proved",
   "theorems": [
    "c70_args",
    "c70_args_others",
    "c70_args_tree",
    "c70_frags",
    "c70_frags_others",
    "c70_frags_tree",
    "c70_independent_refuted",
    "c70_shared_write",
    "c70_sound"
   ],
   "note": "Go slices with explicit arrays, offsets and capacities; independence of fragments sharing a slice refuted"
  },
  {
   "property": "C71",
   "status": "proved",
   "theorems": [
    "c71_arg",
    "c71_fragment",
    "c71_join_args",
    "c71_join_fragments",
    "c71_outside",
    "c71_range_args",
    "c71_range_fragments",
    "c71_registers",
    "c71_shared",
    "c71_shared_refuted"
   ],
   "note": "templates of one call; sharing in the dollar style for hashable values equal to themselves"
  },
  {
   "property": "C72",
   "status": "proved",
   "theorems": [
    "c72_aliased",
    "c72_anonymous",
    "c72_anonymous_listed",
    "c72_column",
    "c72_columns",
    "c72_dropped_refuted",
    "c72_expression",
    "c72_expressions_listed",
    "c72_identifier",
    "c72_listed",
    "c72_question_refuted",
    "c72_table",
    "c72_verbatim"
   ],
   "note": "The expected claim is refuted; the parts that hold are proved."
  },
  {
   "property": "C73",
   "status": "proved",
   "theorems": [
    "c73_dollar",
    "c73_exchanged_refuted",
    "c73_question",
    "c73_styles",
    "c73_tidy",
    "c73_zero_refuted"
   ],
   "note": "The expected claim is refuted (two witnesses); the parts that hold are proved."
  },
  {
   "property": "C74",
   "status": "proved",
   "theorems": [
    "c74_dollar",
    "c74_question",
    "c74_twice_refuted"
   ],
   "note": "Queries with SELECT DISTINCT and ORDER BY used at one place; using such a query twice is refuted."
  },
  {
   "property": "C75",
   "status": "proved",
   "theorems": [
    "c75_grammar",
    "c75_rejected",
    "c75_unambiguous"
   ],
   "note": "Texts without NUL bytes; the value of a number argument is that of parse_float."
  },
  {
   "property": "C76",
   "status": "proved",
   "theorems": [
    "c76_counting_refuted",
    "c76_open_refuted",
    "c76_same_answers",
    "c76_text"
   ],
   "note": "The expected claim is refuted (two witnesses); under the stated conditions it is proved for all databases."
  },
  {
   "property": "C77",
   "status": "proved",
   "theorems": [
    "c77_builds",
    "c77_calls",
    "c77_distinct_refuted"
   ],
   "note": "For any number of builders referring to each other."
  },
  {
   "property": "C78",
   "status": "proved",
   "theorems": [
    "c78_accepted",
    "c78_after_error",
    "c78_created",
    "c78_error_order_refuted",
    "c78_found",
    "c78_functions",
    "c78_message",
    "c78_order"
   ],
   "note": "c78_accepted is stated for ASCII keys; for all keys see C90."
  },
  {
   "property": "C79",
   "status": "proved",
   "theorems": [
    "c79_calls",
    "c79_column",
    "c79_names_refuted",
    "c79_query",
    "c79_replace",
    "c79_template",
    "c79_template_refuted",
    "c79_text",
    "c79_wrapped"
   ],
   "note": "Results are compared with enough fuel on both sides."
  },
  {
   "property": "C80",
   "status": "proved",
   "theorems": [
    "c80_clean",
    "c80_debug",
    "c80_nested_refuted",
    "c80_panic_refuted",
    "c80_tidy",
    "c80_valuer_refuted"
   ],
   "note": "The log output itself is not modelled, only the call of Interpolate that produces it. In Dollar style arguments are hashable (C16). Methods that panic with ErrInvalidIndex are left out, since #join takes that for the end of its list."
  },
  {
   "property": "C81",
   "status": "proved",
   "theorems": [
    "c81_calls",
    "c81_exchange",
    "c81_frame",
    "c81_independent",
    "c81_no_queries",
    "c81_shared_refuted"
   ],
   "note": "User code builds what it is given by its program (prog); a program that changes builders by calling their methods during a build is not modelled."
  },
  {
   "property": "C82",
   "status": "proved",
   "theorems": [
    "c82_dollar_refuted",
    "c82_first",
    "c82_question"
   ],
   "note": "The context is that of BuildQuery (built-in functions only). Arguments are hashable in Dollar style (C16)."
  },
  {
   "property": "C83",
   "status": "proved",
   "theorems": [
    "c83_error",
    "c83_panic",
    "c83_position_refuted",
    "c83_query",
    "c83_where"
   ],
   "note": "Messages of user code (custom builders and functions, and debug interpolation panics) are not restricted."
  },
  {
   "property": "C84",
   "status": "proved",
   "theorems": [
    "c84_again",
    "c84_builds",
    "c84_calls",
    "c84_converse_refuted",
    "c84_fit",
    "c84_query"
   ],
   "note": "Soundness is sufficient, not necessary (c84_converse_refuted). Debug output is excluded, as it may panic."
  },
  {
   "property": "C85",
   "status": "proved",
   "theorems": [
    "c85_error",
    "c85_one_error",
    "c85_refused"
   ],
   "note": "The errors of builds in C83 use the same relation for syntax errors."
  },
  {
   "property": "C86",
   "status": "proved",
   "theorems": [
    "c86_build",
    "c86_calls",
    "c86_inside",
    "c86_query",
    "c86_reading"
   ],
   "note": "SQL comments and backslash escapes are not considered by what is called closed. An unclosed quote is accepted by the parser and built as it is (c86_ex_open)."
  },
  {
   "property": "C87",
   "status": "proved",
   "theorems": [
    "c87_apart",
    "c87_argument",
    "c87_cases",
    "c87_error"
   ],
   "note": "Syntax errors are described by C85, positions by C65."
  },
  {
   "property": "C88",
   "status": "proved",
   "theorems": [
    "c88_merged",
    "c88_merged_refuted",
    "c88_permuted",
    "c88_query"
   ],
   "note": "#join runs through the lists in order and is excluded."
  },
  {
   "property": "C89",
   "status": "proved",
   "theorems": [
    "c89_dollar",
    "c89_dollar_refuted",
    "c89_mentions_refuted",
    "c89_nan_refuted",
    "c89_question",
    "c89_styles",
    "c89_tidy_refuted",
    "c89_values"
   ],
   "note": "Builders of the library with tidy templates (Spec_tidy.v); fewer than 2^63 arguments with numbered placeholders."
  },
  {
   "property": "C90",
   "status": "proved",
   "theorems": [
    "c90_accepted",
    "c90_decode",
    "c90_decode_last",
    "c90_invalid",
    "c90_invalid_last",
    "c90_latin",
    "c90_names",
    "c90_registrable",
    "c90_table",
    "c90_unique"
   ],
   "note": "The letters are those of Unicode 15.0 (Go 1.21 and later)."
  },
  {
   "property": "C91",
   "status": "proved",
   "theorems": [
    "c91_empty_refuted",
    "c91_exact",
    "c91_index",
    "c91_indexes_refuted",
    "c91_lengths_refuted",
    "c91_query",
    "c91_state",
    "c91_style"
   ],
   "note": "Query builders and builders or functions of the user are outside the exact characterisation (C84 gives one direction for them)."
  },
  {
   "property": "C92",
   "status": "proved",
   "theorems": [
    "c92_identifier",
    "c92_injective",
    "c92_messages",
    "c92_plain",
    "c92_printable",
    "c92_quote",
    "c92_table",
    "c92_template"
   ],
   "note": "strconv.Quote is code of the Go library; the model in Quote.v is part of the trusted base. The characters are those of Unicode 15.0 (Go 1.21 and later)."
  },
  {
   "property": "C93",
   "status": "proved",
   "theorems": [
    "c93_calendar",
    "c93_dates",
    "c93_days",
    "c93_equal_refuted",
    "c93_inert",
    "c93_layout_inert",
    "c93_layout_refuted",
    "c93_literal",
    "c93_micro",
    "c93_microsecond_refuted",
    "c93_monotonic",
    "c93_nil_option",
    "c93_options",
    "c93_second"
   ],
   "note": "time.Time.Round and Format are code of the Go library; the model in Time.v is part of the trusted base. The zone database is a parameter. c93_second and c93_micro assume offsets of whole minutes below 100 hours."
  },
  {
   "property": "C94",
   "status": "proved",
   "theorems": [
    "c94_layout",
    "c94_literal",
    "c94_moment",
    "c94_plain",
    "c94_refuted"
   ],
   "note": "time.Time.Format is code of the Go library; the model in Time.v is part of the trusted base and is proved against the table of elements in Spec_layout.v."
  },
  {
   "property": "C95",
   "status": "proved",
   "theorems": [
    "c95_answered",
    "c95_dollar",
    "c95_question",
    "c95_same_answers",
    "c95_undeclared_refuted"
   ],
   "note": "Subqueries are not correlated: they see the tables but not the rows of the query around them. A missing table has no rows in the semantics (a real database reports an error)."
  },
  {
   "property": "C96",
   "status": "proved",
   "theorems": [
    "c96_builds",
    "c96_determined",
    "c96_lacks"
   ],
   "note": "The rules refer to the builds of the fragments and to the runs of user functions through the model (with enough time); the store of arguments is that of the model."
  },
  {
   "property": "C97",
   "status": "proved",
   "theorems": [
    "c97_call",
    "c97_dropped_refuted",
    "c97_error_refuted",
    "c97_in_range",
    "c97_join_args",
    "c97_join_fragments",
    "c97_received",
    "c97_some",
    "c97_written"
   ],
   "note": "reflect.Value.Convert is code of the Go standard library, written down in Convert.v; what it gives for floats outside 64 bits depends on the machine and is a parameter (far). c97_error_refuted and c97_dropped_refuted are witnesses against the expectation of an error."
  },
  {
   "property": "C98",
   "status": "proved",
   "theorems": [
    "c98_bare_refuted",
    "c98_choice",
    "c98_exact",
    "c98_followed",
    "c98_needed",
    "c98_one"
   ],
   "note": "Removes the condition ctes_aliased of C37 and C39. c98_bare_refuted is the witness against keeping all dependencies."
  },
  {
   "property": "C99",
   "status": "proved",
   "theorems": [
    "c99_described",
    "c99_lacks",
    "c99_one",
    "c99_query",
    "c99_same",
    "c99_stays",
    "c99_text"
   ],
   "note": "Joins C96 (one template) and C98 (one query) into a semantics without reference to the computation. User code enters as `returns`. Errors other than a lacking argument or fragment are the subject of C83."
  },
  {
   "property": "C100",
   "status": "proved",
   "theorems": [
    "c100_alone_refuted",
    "c100_backslash_refuted",
    "c100_literal",
    "c100_one",
    "c100_shape",
    "c100_time_refuted",
    "c100_tokens"
   ],
   "note": "The reader is part of the specification, not of the code. Three refuted theorems give the texts on which the conditions fail: `10-$1` with -5, a string beginning with a backslash in such a dialect, a time format with a quote."
  },
  {
   "property": "C101",
   "status": "proved",
   "theorems": [
    "c101_determined_dollar",
    "c101_determined_question",
    "c101_dollar",
    "c101_names_refuted",
    "c101_question",
    "c101_read"
   ],
   "note": "The reader is part of the specification, not of the code; it takes keywords in capitals, as the builder writes them. Single queries without WITH and UNION, as in C66. `c101_names_refuted` shows the condition on names and operators is needed."
  },
  {
   "property": "C102",
   "status": "proved",
   "theorems": [
    "c102_determined",
    "c102_dollar",
    "c102_minus_refuted",
    "c102_question",
    "c102_read"
   ],
   "note": "Standard strings (a backslash is an ordinary character); the dialect with escaping backslashes is covered token by token in C100. The reader is part of the specification."
  },
  {
   "property": "C103",
   "status": "proved",
   "theorems": [
    "c103_determined_dollar",
    "c103_determined_question",
    "c103_dollar",
    "c103_names_refuted",
    "c103_question",
    "c103_read"
   ],
   "note": "The reader is part of the specification, not of the code. ORDER BY, LIMIT and OFFSET of a query with UNION are written before the UNION without parentheses; the reader takes them, as the builder means them, as clauses of the first query. UNION is now among the reserved words of C101 and C102 as well. `c103_names_refuted` shows that the condition on the names of common table expressions is needed."
  },
  {
   "property": "C104",
   "status": "proved",
   "theorems": [
    "c104_determined_dollar",
    "c104_determined_question",
    "c104_dollar",
    "c104_names_refuted",
    "c104_question",
    "c104_text_dollar",
    "c104_text_question"
   ],
   "note": "Standard strings (a backslash is an ordinary character). The reader is part of the specification. `c104_names_refuted` shows that the condition on the names of common table expressions is needed."
  },
  {
   "property": "C105",
   "status": "proved",
   "theorems": [
    "c105_all_joins",
    "c105_dollar",
    "c105_interpolated",
    "c105_interpolated_dollar",
    "c105_question",
    "c105_styles",
    "c105_zero_refuted"
   ],
   "note": "The engine (tokens, reader, meaning, evaluation) is part of the specification; it is not a model of any particular database. With DISTINCT the text also selects what is ordered by (C66), and the rows have these values at their end. `c105_zero_refuted` shows that `by_value` is needed in Dollar style."
  },
  {
   "property": "C106",
   "status": "proved",
   "theorems": [
    "c106_dollar",
    "c106_interpolated",
    "c106_interpolated_dollar",
    "c106_question",
    "c106_styles",
    "c106_whole"
   ],
   "note": "The engine is part of the specification; it is not a model of any particular database. Subqueries are not correlated: they see the tables of the query around them, not its current row. `c105_zero_refuted` (C105) shows that `by_value` is needed in Dollar style."
  },
  {
   "property": "C107",
   "status": "proved",
   "theorems": [
    "c107_dollar",
    "c107_empty_refuted",
    "c107_interpolated",
    "c107_interpolated_dollar",
    "c107_question",
    "c107_union_refuted"
   ],
   "note": "The grammar is the reader of C103 without the two liberties it takes: clauses before UNION and empty lists. Keywords, names and operators are those of C103. The expected claim is refuted (two witnesses); the exact condition is proved."
  },
  {
   "property": "C108",
   "status": "proved",
   "theorems": [
    "c108_all_dollar",
    "c108_all_question",
    "c108_back_refuted",
    "c108_dollar",
    "c108_equal_refuted",
    "c108_ordered",
    "c108_question"
   ],
   "note": "Execution as in C105 (a semantics of SELECT statements, not a model of a particular database). Limits are integers without bound in the model, int64 in the code: pages with i*k beyond int64 are not covered by the correspondence. The pages are executed on the same data."
  },
  {
   "property": "C109",
   "status": "proved",
   "theorems": [
    "c109_count_dollar",
    "c109_count_question",
    "c109_distinct",
    "c109_distinct_refuted",
    "c109_number",
    "c109_scan_dollar",
    "c109_scan_question"
   ],
   "note": "Databases are abstract: a function from text and arguments to rows or an error, required to give the rows of executing the text as in C105 and C106. Iteration errors (C53) are excluded. A star counts as one column. The expectation on Distinct is refuted by c109_distinct_refuted; the true part is c109_distinct."
  },
  {
   "property": "C110",
   "status": "proved",
   "theorems": [
    "c110_bounds_refuted",
    "c110_narrow_dollar",
    "c110_narrow_question",
    "c110_order_dollar",
    "c110_order_question",
    "c110_repeat_dollar",
    "c110_repeat_question"
   ],
   "note": "Execution as in C105. Free conditions (Where with a fragment of any text, e.g. with OR) are not covered: they would not be read as conditions. The expectation with bounds is refuted by c110_bounds_refuted."
  },
  {
   "property": "C111",
   "status": "proved",
   "theorems": [
    "c111_escapes",
    "c111_parens",
    "c111_refuted",
    "c111_required",
    "c111_same"
   ],
   "note": "The reader of conditions (Spec_bool.v) works on the tokens of Spec_sqltok.v; it knows no CASE expressions (an OR between CASE and END counts as outside of parentheses). The unrestricted expectation is refuted by c111_refuted; c111_escapes says what happens instead."
  },
  {
   "property": "C112",
   "status": "proved",
   "theorems": [
    "c112_distinct_refuted",
    "c112_order_dollar",
    "c112_order_question",
    "c112_select_dollar",
    "c112_select_question"
   ],
   "note": "Execution as in C105. The expectation with DISTINCT is refuted by c112_distinct_refuted."
  },
  {
   "property": "C113",
   "status": "proved",
   "theorems": [
    "c113_dollar",
    "c113_question"
   ],
   "note": "Execution as in C106. The order of common table expressions is not covered: each sees those before it. That the other calls still meet the conditions of C106 on depth, single use and names is proved, not assumed."
  },
  {
   "property": "C114",
   "status": "proved",
   "theorems": [
    "c114_dollar",
    "c114_question"
   ],
   "note": "Execution as in C104. Columns that belong to no table are kept as they are and must mean the same on all rows (`tableless`): the model knows no column names resolved without a table."
  },
  {
   "property": "C115",
   "status": "proved",
   "theorems": [
    "c115_dollar",
    "c115_order_refuted",
    "c115_question"
   ],
   "note": "Execution as in C105. c115_order_refuted: SELECT DISTINCT with ORDER BY of another column can repeat the selected values, since the builder also selects the values ordered by."
  },
  {
   "property": "C116",
   "status": "proved",
   "theorems": [
    "c116_instead_dollar",
    "c116_instead_question",
    "c116_regroup_dollar",
    "c116_regroup_question"
   ],
   "note": "Execution as in C105."
  },
  {
   "property": "C117",
   "status": "proved",
   "theorems": [
    "c117_dollar",
    "c117_question",
    "c117_right_refuted"
   ],
   "note": "Execution as in C105. c117_right_refuted: an inner join before a right join and after it give different answers."
  },
  {
   "property": "C118",
   "status": "proved",
   "theorems": [
    "c118_dollar",
    "c118_question"
   ],
   "note": "Execution as in C105. One join only; which joins among several can change places is C117."
  },
  {
   "property": "C119",
   "status": "proved",
   "theorems": [
    "c119_dollar",
    "c119_question"
   ],
   "note": "Execution as in C105. The equality of the database is assumed symmetric; the conditions are equalities of two columns, as in C47."
  },
  {
   "property": "C120",
   "status": "proved",
   "theorems": [
    "c120_dollar",
    "c120_met_refuted",
    "c120_question"
   ],
   "note": "Execution as in C105. RightJoin and FullJoin after the join that changes are not covered: which rows they add depends on the rows before them. c120_met_refuted: not for conditions that missing rows meet."
  },
  {
   "property": "C121",
   "status": "proved",
   "theorems": [
    "c121_dollar",
    "c121_many_refuted",
    "c121_question"
   ],
   "note": "Execution as in C105. buildFrom leaves out optional joins of Distinct queries only (C37); this says when leaving one out would be right without Distinct. c121_many_refuted: a join that finds two rows."
  },
  {
   "property": "C122",
   "status": "proved",
   "theorems": [
    "c122_dollar",
    "c122_question"
   ],
   "note": "Execution as in C105, which also reads the empty lists WhereIn and WhereNotIn write for empty slices, although some databases refuse them."
  },
  {
   "property": "C123",
   "status": "proved",
   "theorems": [
    "c123_dollar",
    "c123_limit_refuted",
    "c123_plain",
    "c123_question"
   ],
   "note": "Execution as in C106. That the answers of the united queries have the same rows is needed for one direction only (c123_limit_refuted)."
  },
  {
   "property": "C124",
   "status": "proved",
   "theorems": [
    "c124_dollar",
    "c124_limit_refuted",
    "c124_question"
   ],
   "note": "Execution as in C106. Distinct makes QueryBuilder leave out unneeded optional joins (C37); here the same joins are to appear with and without it (C115 and C76 say when leaving them out changes nothing)."
  },
  {
   "property": "C125",
   "status": "proved",
   "theorems": [
    "c125_dollar",
    "c125_question"
   ],
   "note": "Execution as in C106."
  },
  {
   "property": "C126",
   "status": "proved",
   "theorems": [
    "c126_dollar",
    "c126_limit_refuted",
    "c126_question"
   ],
   "note": "Execution as in C106. The two queries have the same joins in the same forms."
  },
  {
   "property": "C127",
   "status": "proved",
   "theorems": [
    "c127_dollar",
    "c127_limit_refuted",
    "c127_question"
   ],
   "note": "Execution as in C106; the same joins are to appear with and without Distinct, as in C124."
  },
  {
   "property": "C128",
   "status": "proved",
   "theorems": [
    "c128_dependent_refuted",
    "c128_dollar",
    "c128_question"
   ],
   "note": "Execution as in C106; what a query reads is that of Spec_views.v, without its own common table expressions."
  }
 ]
}