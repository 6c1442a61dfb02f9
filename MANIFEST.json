{
 "claims": [
  {
   "property": "C01",
   "status": "proved",
   "theorems": [
    "quick_parse_terminates"
   ],
   "note": "PropQuick.v; bound on machine steps proved in QuickProofs.v (qrun_terminates)."
  },
  {
   "property": "C02",
   "status": "proved",
   "theorems": [
    "quick_parse_never_rejects"
   ],
   "note": "PropQuick.v. Memory exhaustion is not modelled."
  },
  {
   "property": "C03",
   "status": "proved",
   "theorems": [
    "quick_segment_text"
   ],
   "note": "PropQuick.v"
  },
  {
   "property": "C04",
   "status": "proved",
   "theorems": [
    "quick_segments_partition"
   ],
   "note": "PropQuick.v"
  },
  {
   "property": "C05",
   "status": "proved",
   "theorems": [
    "quick_segment_extent",
    "quick_semicolons_hidden"
   ],
   "note": "PropQuick.v"
  },
  {
   "property": "C06",
   "status": "proved",
   "theorems": [
    "quick_positions_true",
    "walk_counts"
   ],
   "note": "PropQuick.v"
  },
  {
   "property": "C07",
   "status": "proved",
   "theorems": [
    "quick_eof"
   ],
   "note": "PropQuick.v"
  },
  {
   "property": "C08",
   "status": "proved",
   "theorems": [
    "quick_callback_protocol",
    "quick_only_statement_segments"
   ],
   "note": "PropQuick.v"
  },
  {
   "property": "C09",
   "status": "partial",
   "theorems": [
    "quick_text_trimmed_partial",
    "quick_text_trailing_refuted"
   ],
   "note": "The leading half is proved, the trailing half is refuted with witnesses."
  },
  {
   "property": "C10",
   "status": "proved",
   "theorems": [
    "quick_restartable"
   ],
   "note": "PropQuick.v"
  },
  {
   "property": "C11",
   "status": "partial",
   "theorems": [
    "quick_chunks",
    "parse_chunks_partial",
    "parse_chunks_exact",
    "parse_chunks_contexts_refuted"
   ],
   "note": "Quick parsing: proved in full for streams and for input cut into pieces of any sizes. Parsing: the same return value, last position and segments, except for the contexts of errors, which are cut from what has been read so far; that they differ is proved (parse_chunks_contexts_refuted). parse_chunks_exact: with the contexts, and for every callback, the outcome is that of the bytes for some amount of look-ahead; the theorems about parsing hold for every look-ahead."
  },
  {
   "property": "C12",
   "status": "partial",
   "theorems": [
    "quick_buffer_partial",
    "parse_buffer_partial",
    "buffer_restarts",
    "long_buffer",
    "buffer_parsed_refuted"
   ],
   "note": "False as stated: source_from_buffer does not advance its pointer, so beyond 1024 bytes the beginning is parsed again (long_buffer gives the exact outcome for up to 1536 bytes, buffer_parsed_refuted a witness). Proved for up to 1024 bytes (up to error contexts for the full parser)."
  },
  {
   "property": "C13",
   "status": "proved",
   "theorems": [
    "cypher_parse_terminates"
   ],
   "note": "All inputs, flags, callbacks, configurations; fuel linear in the input, rounds at most one more than bytes."
  },
  {
   "property": "C14",
   "status": "proved",
   "theorems": [
    "cypher_parse_never_rejects"
   ],
   "note": "The grammar never rejects; aborts by assertion are a separate outcome (C24)."
  },
  {
   "property": "C15",
   "status": "proved",
   "theorems": [
    "cypher_segments_tile"
   ],
   "note": ""
  },
  {
   "property": "C16",
   "status": "partial",
   "theorems": [
    "cypher_positions_partial",
    "cypher_positions_refuted"
   ],
   "note": "Proved for inputs in which no newline follows a backquote; refuted without that condition (a newline inside a backquoted name is not counted). Offsets are right for every input (C15, C17)."
  },
  {
   "property": "C17",
   "status": "partial",
   "theorems": [
    "cypher_ranges_nest",
    "sibling_starts_refuted"
   ],
   "note": "Nesting, start<=end, containment in the segment and siblings ordered by end proved for every input; the clause on sibling starts is false and refuted."
  },
  {
   "property": "C18",
   "status": "proved",
   "theorems": [
    "ordinals_number_preorder",
    "cypher_ordinals"
   ],
   "note": ""
  },
  {
   "property": "C19",
   "status": "proved",
   "theorems": [
    "result_is_concatenation",
    "cypher_result"
   ],
   "note": ""
  },
  {
   "property": "C20",
   "status": "proved",
   "theorems": [
    "cypher_callback_protocol",
    "cypher_callback_stops",
    "segment_during_callback"
   ],
   "note": "Order, stopping and return value: cypher_callback_protocol, cypher_callback_stops. Lifetime of the segment: segment_during_callback, with a callback (watching, AllocSpec.v) that goes wrong unless the segment passed is alive with exactly one reference and only the segments kept before are still alive."
  },
  {
   "property": "C21",
   "status": "partial",
   "theorems": [
    "segment_memory_safe",
    "segment_release",
    "segment_usable",
    "segment_refcount_overflow_refuted"
   ],
   "note": "Every history of making, retaining, releasing, reading and merging segments, with allocations failing anywhere, in which fewer than 2^32 references are outstanding at a time; with 2^32 the count wraps to zero (witness)."
  },
  {
   "property": "C22",
   "status": "partial",
   "theorems": [
    "expressions_read_back_partial",
    "minimal_text_read_back_partial",
    "texts_unambiguous",
    "minimal_text_read_back_refuted",
    "list_of_membership_refuted"
   ],
   "note": "for all expressions over strings, integers, parameters, names, constants, lists, maps, calls (with DISTINCT and *), CASE, list comprehensions, FILTER, EXTRACT, REDUCE, ALL, ANY, NONE, SINGLE and all unary, binary, comparison, postfix, property, subscript and slice operators: every text (any parentheses, any quoting) and in particular the minimal one parses to exactly the tree of the expression. Missing: floats, label checks, map projections, patterns in expressions. In full generality the property is false: (NOT $p) - -(NOT $q) is read as a pattern (minimal_text_read_back_refuted) and the list [a IN b] as a comprehension (list_of_membership_refuted); the positive theorems exclude parentheses around names, parameters, constants, NOT $p and what starts with a map, and lists whose first element starts with a membership test of a name"
  },
  {
   "property": "C23",
   "status": "proved",
   "theorems": [
    "operator_levels",
    "operator_order",
    "operator_same_level",
    "operator_associativity",
    "operator_level_associativity",
    "operator_text"
   ],
   "note": "The table of operators.c against an independent list of levels (OperSpec.v)."
  },
  {
   "property": "C24",
   "status": "partial",
   "theorems": [
    "parser_assertions_hold_partial",
    "parser_assertions_hold_refuted"
   ],
   "note": "False as stated: two witnesses abort (a comment before the dot of a function name; a newline in a backquoted name). Proved: every input without a comment next to a dot and without a newline after a backquote is parsed to the end, for every configuration, flags and callback."
  },
  {
   "property": "C25",
   "status": "partial",
   "theorems": [
    "parser_calls_are_valid",
    "parser_nodes_as_documented_partial",
    "parser_nodes_as_documented_refuted",
    "directive_is_root"
   ],
   "note": "For every input no constructor call is refused (the second half of the property), and every node delivered was built from parameters that are as documented, types and membership in the children, array elements included, except at eight parameter positions; at each of those a parse that deviates from the documentation is given (e.g. SKIP with an expression that is no integer)."
  },
  {
   "property": "C26",
   "status": "partial",
   "theorems": [
    "error_message",
    "cypher_errors_partial",
    "furthest_failure_partial"
   ],
   "note": "The text and exact buffer: proved for every character, colouring and non-empty label list. That the labels are those of the furthest failure is C27. Errors delivered by a parse: for inputs in which no newline follows a backquote."
  },
  {
   "property": "C27",
   "status": "partial",
   "theorems": [
    "furthest_failure_partial",
    "errors_increase",
    "furthest_failure_refuted",
    "cypher_errors_partial"
   ],
   "note": "Proved for every history of notes and reports without cp_et_clear_potentials; with it the claim is false (witness): the position of the dropped failures is kept. Increasing offsets: every history, and the errors of every segment."
  },
  {
   "property": "C28",
   "status": "partial",
   "theorems": [
    "errors_have_skipped_input",
    "result_errors_have_skipped_input",
    "skipped_input_reported_partial",
    "single_skipped_iff_reported",
    "skipped_input_reported_refuted"
   ],
   "note": "Every segment (and result) with a parse error has an error node. The converse is proved for the first segment of a call, hence in full when a single segment is requested; for later segments it is false of the code (witness: skipped_input_reported_refuted, a result with an error node and no error at all)."
  },
  {
   "property": "C29",
   "status": "partial",
   "theorems": [
    "error_context_partial",
    "error_context_dots_refuted",
    "error_context_offset_refuted",
    "error_context_width_refuted",
    "cypher_errors_partial"
   ],
   "note": "Window, width, marks and offset proved for every buffer, offset and width; three corner cases where the claim is false have witnesses."
  },
  {
   "property": "C30",
   "status": "proved",
   "theorems": [
    "annotations_are_a_map",
    "annotations_no_leak"
   ],
   "note": ""
  },
  {
   "property": "C31",
   "status": "partial",
   "theorems": [
    "release_handler_partial",
    "release_handler_node_refuted"
   ],
   "note": "Exactly once, with userdata and data, for every history; the node passed is NULL instead of the annotated node (witness)."
  },
  {
   "property": "C32",
   "status": "partial",
   "theorems": [
    "clone_copies_partial",
    "clone_returns_partial",
    "clone_never_copies_refuted",
    "clone_refuted"
   ],
   "note": "False as stated. clone_refuted: the tree of the parse of 'RETURN 1;' is never copied, the call does not return (child_index does not advance its counter; ast_return.c inverts a NULL test). clone_never_copies_refuted: nodes of six types, among them all RETURN and WITH clauses, are never copied correctly. Proved for all other trees without CASE, MAP and NUL in strings: whatever clone returns is an equal tree of new, distinct nodes, and it returns exactly if every pointer of every node is to its first child."
  },
  {
   "property": "C33",
   "status": "partial",
   "theorems": [
    "instanceof_hierarchy_partial",
    "instanceof_partial_order",
    "documented_instances_partial",
    "node_type_names",
    "comment_instanceof_refuted"
   ],
   "note": "Proved for all types but COMMENT, against the closure of the parents and against the instances the API documentation names. Refuted for COMMENT: the table of types lacks it, so comments are not instances of it and typestr dereferences NULL. Abstract types have no name."
  },
  {
   "property": "C34",
   "status": "partial",
   "theorems": [
    "constructor_checks_partial",
    "constructor_membership_refuted",
    "constructor_checks_refuted"
   ],
   "note": "The specification is a table transcribed from the API documentation. Proved for every constructor and argument list; refuted: nodes passed in arrays need not be among the children (the macro's loop is empty), and eleven parameters are checked less strictly than documented (each with a witness). The debug build, where a violated requirement aborts, is modelled; EINVAL and ownership on failure are not."
  },
  {
   "property": "C35",
   "status": "proved",
   "theorems": [
    "string_literals_decoded",
    "every_string_has_a_literal"
   ],
   "note": "every string literal that the grammar matched has a string node holding the decoded text, and every string node is such; every byte string has a literal that parses back to it"
  },
  {
   "property": "C36",
   "status": "proved",
   "theorems": [
    "detailstr_protocol",
    "parsed_detailstr_protocol",
    "detailstr_terminated_refuted"
   ],
   "note": "PropPrint.v: every node type; hypotheses: the node was built by its constructor, and the nodes it refers to have ordinals. PropSafe.v discharges both for every node of every parse. Not claimed: termination by NUL, which is false for some types (witness given)."
  },
  {
   "property": "C37",
   "status": "partial",
   "theorems": [
    "snprintf_realloc_complete_partial",
    "detailstr_realloc_complete_partial",
    "snprintf_realloc_complete_refuted",
    "detailstr_realloc_complete_refuted"
   ],
   "note": "Proved for every text and capacity unless the length of the text is exactly the capacity, where it is false (the last byte is lost)."
  },
  {
   "property": "C38",
   "status": "partial",
   "theorems": [
    "vector_is_list_partial",
    "vector_failure_refuted"
   ],
   "note": "Every history in which allocations succeed; false when one fails (witness: the result of realloc is not checked)."
  },
  {
   "property": "C39",
   "status": "partial",
   "theorems": [
    "string_buffer_partial",
    "string_buffer_terminated_refuted"
   ],
   "note": "Every history including failing allocations; the buffer is not NUL-terminated (witness)."
  },
  {
   "property": "C40",
   "status": "partial",
   "theorems": [
    "cypher_ast_fprint_lines_partial",
    "segment_fprint_lines_partial",
    "decimal_numbers",
    "cypher_ast_fprint_lines_refuted"
   ],
   "note": "Proved for every forest of constructor-built nodes, and so for every segment of every parse, unless a detail has exactly the capacity of the print buffer, where the last character is lost (witness). log10(0) is an arbitrary value. Ordinals of at most 10 digits."
  },
  {
   "property": "C41",
   "status": "partial",
   "theorems": [
    "allocation_failure_refuted",
    "failure_inside_never_returns",
    "parse_failure_inside_never_returns",
    "outer_failure_partial",
    "parse_outer_failure_partial",
    "no_failure_no_leak"
   ],
   "note": "False of the code: a failed allocation below parse_one frees the top block twice, and a failed growth of a vector writes through NULL (allocation_failure_refuted; failure_inside_never_returns for every input and every point of failure). Proved: failures of the top block, of a segment's blocks and of the result's arrays return -1 or NULL with everything freed exactly once, and without failures nothing leaks and nothing is freed twice. Missing: constructors are modelled as allocating a node, some further blocks and the array of children without the order of each constructor."
  },
  {
   "property": "C42",
   "status": "proved",
   "theorems": [
    "config_translates_parse",
    "config_translates_result"
   ],
   "note": "Equality of outcomes for all inputs, callbacks, positions and ordinals (natural numbers: the wrap-around of unsigned int is not modelled)."
  },
  {
   "property": "C43",
   "status": "proved",
   "theorems": [
    "comments_and_skipped_input_preserved",
    "comment_has_node",
    "comment_nodes_hold_comments"
   ],
   "note": "For every segment of every call that returns: the uses of the comment rules in the match that produced it and the comment nodes of its trees agree up to order in type, text and start; each use is over a comment as defined in TraceSpec.v."
  },
  {
   "property": "C44",
   "status": "proved",
   "theorems": [
    "only_statements_no_commands",
    "directive_is_root",
    "quick_only_statement_segments"
   ],
   "note": "cypher_parse: no node anywhere in the trees is a client command; quick parser: every segment is flagged as a statement."
  },
  {
   "property": "C45",
   "status": "proved",
   "theorems": [
    "comments_and_skipped_input_preserved",
    "error_nodes_hold_input"
   ],
   "note": "As C43, for the rules that skip input. The text is what the rule consumed; whether an error is recorded for it as well is C27/C28."
  },
  {
   "property": "C46",
   "status": "proved",
   "theorems": [
    "buffer_bounds",
    "sources_respect_room"
   ],
   "note": ""
  },
  {
   "property": "C47",
   "status": "proved",
   "theorems": [
    "colorization_changes_messages_only"
   ],
   "note": "For callbacks that do not look at the colors."
  },
  {
   "property": "C48",
   "status": "proved",
   "theorems": [
    "leaves_match_input",
    "names_and_numbers_match_input"
   ],
   "note": "the multiset of leaf nodes (type, text, range) of each segment equals the one that the uses of the leaf rules in the match stand for"
  },
  {
   "property": "C49",
   "status": "partial",
   "theorems": [
    "accessor_returns_argument",
    "path_accessors_return_elements",
    "accessor_refuses_other_types",
    "map_accessors_return_entries",
    "parsed_accessors_return",
    "parsed_texts_whole_partial",
    "parsed_texts_whole_refuted"
   ],
   "note": "Proved for all accessors, constructors, indexes and parses. Only the last part is not proved in full: a string accessor returns the whole text for inputs without NUL bytes; with one it is cut (parsed_texts_whole_refuted)."
  },
  {
   "property": "C50",
   "status": "partial",
   "theorems": [
    "lint_status",
    "lint_reports",
    "lint_reports_described_partial",
    "lint_failure_means_skipped",
    "lint_stdout",
    "lint_tree_lines_partial",
    "lint_ends_run",
    "lint_same_reports",
    "lint_returns_partial",
    "lint_silent_refuted",
    "lint_returns_refuted",
    "lint_reads_all_refuted"
   ],
   "note": "Status, reports, outputs and the independence of the options proved for all options, arguments and contents. The last sentence is false: the program aborts on some inputs (lint_returns_refuted; proved without newlines after backquotes and comments beside dots), does not read files after one that cannot be opened, and succeeds on some skipped input. The lines of trees as for C40."
  },
  {
   "property": "C51",
   "status": "partial",
   "theorems": [
    "statements_read_back_partial",
    "statements_reach_the_callback_partial",
    "statement_text_read_back_partial",
    "statement_texts_unambiguous",
    "pattern_comma_blank_refuted"
   ],
   "note": "For all statements with EXPLAIN, PROFILE and CYPHER (version and settings), USING PERIODIC COMMIT, START (ids, index lookups and queries, everything), MATCH (with hints), RETURN, WITH, UNWIND, MERGE, CREATE, SET, DELETE, REMOVE, FOREACH (nested), CALL, LOAD CSV, UNION, indexes and constraints, of any length: every text as specified parses to exactly the tree of the statement. Missing: settings of CYPHER whose name begins with a digit or whose value begins with a slash or has white space, unquoted names, other spacing than one blank after each token, and the expressions missing in C22. False: a blank before the comma between pattern parts is an error (pattern_comma_blank_refuted)."
  },
  {
   "property": "C52",
   "status": "partial",
   "theorems": [
    "scripts_read_back_partial",
    "scripts_reach_the_callback_partial",
    "single_reads_the_first_partial",
    "scripts_concatenate_partial",
    "script_text_read_back_partial"
   ],
   "note": "For all lists of the statements of C51 and the commands of C53, with any white space and empty statements between them: one directive for each, in order, no errors, each tree exactly as it should be; with the single flag the first alone, for any text after it. Missing: comments between statements, a newline after a backquoted name (where the library can abort, see C24), and the statements missing in C51."
  },
  {
   "property": "C53",
   "status": "partial",
   "theorems": [
    "commands_read_back_partial",
    "command_texts_unambiguous"
   ],
   "note": "For all names and lists of arguments, each word made of quoted parts (any bytes, with escapes), escapes, semicolons after a backslash, and any bytes but quotes, white space, semicolons, slashes and backslashes, with any blanks and tabs after the colon and around the words, and lines continued by a backslash. Missing: slashes outside quotes, comments, a backslash of a continued line right after a word, commands ended by the end of input."
  }
 ]
}