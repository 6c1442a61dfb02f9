{"id": "C01", "title": "Quick parse terminates", "statement": "cypher_quick_uparse / cypher_quick_fparse return for every input, flag combination and callback (assuming the callback itself returns and the stream ends): the grammar cannot loop without consuming input and the driver loop makes progress every round.", "quantifier": "all byte strings of any length, all flag words, all callbacks (as functions of the call history)", "why_tests_cant": "Non-termination can hide behind one specific byte sequence; a test only ever sees the inputs that did return.", "anchors": ["lib/src/quick_parser.c: parse, safe_yyparsefrom", "lib/src/quick_parser.leg: all rules"]}
{"id": "C02", "title": "Quick parse never reports a syntax failure", "statement": "The entry rules `directive` and `statement` succeed at every position of every input, so cypher_quick_uparse/fparse return 0 or the callback's negative value; -1 can only come from the callback or from memory exhaustion.", "quantifier": "all byte strings, all flag words, all callbacks", "why_tests_cant": "One rejected suffix among infinitely many inputs is enough to falsify it.", "anchors": ["lib/src/quick_parser.c: parse", "lib/src/quick_parser.leg: directive, statement, client-command"]}
{"id": "C03", "title": "Quick segment text is exactly the reported range", "statement": "For every segment delivered to the callback, the text pointer/length denote input[range.start.offset .. range.end.offset), and range.start.offset <= range.end.offset <= next.offset <= input length.", "quantifier": "all byte strings, all flag words, all callbacks, every delivered segment", "why_tests_cant": "The buffer is compacted and refilled between segments; a wrong base shows up only for particular sequences of segments.", "anchors": ["lib/src/quick_parser.c: segment, input_position, cypher_quick_parse_segment_get_text, cypher_quick_parse_segment_get_range, cypher_quick_parse_segment_get_next"]}
{"id": "C04", "title": "Quick segments partition the input and lose nothing", "statement": "Segments are delivered left to right without overlap; the input between a segment's predecessor's next and its start is only blanks, line breaks and complete comments; between its end and its next there are only blanks/comments and exactly one terminator (';', a line end for commands, or end of input). When the call returns 0 without having been stopped, the whole input has been covered.", "quantifier": "all byte strings, all flag words, all callbacks", "why_tests_cant": "It is a statement about every byte of every input: none may be silently dropped.", "anchors": ["lib/src/quick_parser.c: parse, segment", "lib/src/quick_parser.leg: statement, client-command, -, --"]}
{"id": "C05", "title": "Quick statement text contains no terminating semicolon", "statement": "In the text of a statement segment every ';' lies inside a quoted string, a comment, or is otherwise hidden by an earlier unclosed construct; conversely a ';' inside quotes or comments never ends a statement. Equivalently, a statement's text and terminator are those computed by an independent left-to-right tokenisation of the input.", "quantifier": "all byte strings in CYPHER_PARSE_ONLY_STATEMENTS mode and all statement segments in default mode", "why_tests_cant": "Quoting, escapes, comments and end-of-input interact; the combinations are unbounded.", "anchors": ["lib/src/quick_parser.leg: statement-body, quoted, comment, unclosed-block-comment, escaped-char"]}
{"id": "C06", "title": "Quick parse positions are true line/column/offset", "statement": "Every position reported by a quick segment (range start, range end, next) has offset = number of bytes before it, line = 1 + number of newline characters before it, column = 1 + number of bytes since the last newline.", "quantifier": "all byte strings, all flag words, all segments", "why_tests_cant": "Line starts are recorded during speculative matching and never rolled back; correctness depends on every backtracking path.", "anchors": ["lib/src/quick_parser.c: line_start, backtrack_lines, input_position, segment", "lib/src/quick_parser.leg: EOL, _line_start_"]}
{"id": "C07", "title": "Quick parse eof flag", "statement": "A segment reports eof exactly when it was terminated by the end of the input rather than by ';' or a line end; eof segments end at the end of input and no segment is delivered after one.", "quantifier": "all byte strings, all flag words, all callbacks", "why_tests_cant": "The flag is set by deferred actions of whichever alternatives survive backtracking.", "anchors": ["lib/src/quick_parser.c: parse, segment", "lib/src/quick_parser.leg: EOF"]}
{"id": "C08", "title": "Quick parse callback protocol", "statement": "The callback is invoked once per segment in order until it first returns non-zero; a positive return stops the parse with result 0, a negative return stops it and is returned unchanged; with CYPHER_PARSE_SINGLE at most one segment is delivered; with CYPHER_PARSE_ONLY_STATEMENTS every delivered segment is a statement.", "quantifier": "all byte strings, all flag words, all callbacks (arbitrary history-dependent return values)", "why_tests_cant": "Universally quantified over user code.", "anchors": ["lib/src/quick_parser.c: parse, segment"]}
{"id": "C09", "title": "Quick parse text has no leading or trailing blanks or comments", "statement": "As documented, a segment's text excludes any leading or trailing comments or whitespace.", "quantifier": "all byte strings, all segments", "why_tests_cant": "A documented guarantee over all inputs; only a proof or a counterexample settles it.", "anchors": ["lib/src/cypher-parser.h.in: cypher_quick_parse_segment_get_text documentation", "lib/src/quick_parser.leg: statement, statement-body, client-command, command-body"]}
{"id": "C10", "title": "Quick parse is restartable at `next`", "statement": "Parsing the remainder of the input from a segment's next offset delivers exactly the remaining segments, with positions translated by next.", "quantifier": "all byte strings, all split points reported by the parser", "why_tests_cant": "Independence from history cannot be sampled.", "anchors": ["lib/src/quick_parser.c: parse (loop), segment (position_offset)"]}
{"id": "C11", "title": "Delivery of input in chunks does not matter", "statement": "The outcome of a parse depends only on the bytes delivered by the source, not on how they are split between reads: reading one byte at a time (streams) and reading blocks (buffers) give the same segments.", "quantifier": "all byte strings and all ways of cutting them into non-empty chunks", "why_tests_cant": "Refill happens at arbitrary points inside matching; the number of chunkings is exponential.", "anchors": ["lib/src/quick_parser.c: source, source_from_stream, source_from_buffer", "lib/src/parser.c: source", "leg runtime: yyrefill"]}
{"id": "C12", "title": "Parsing a buffer parses that buffer", "statement": "cypher_quick_uparse(s,n) and cypher_uparse(s,n) present to the grammar exactly the n bytes of s, for every n.", "quantifier": "all byte strings of any length", "why_tests_cant": "Tests only use short inputs; the property is about every length.", "anchors": ["lib/src/quick_parser.c: source_from_buffer, cypher_quick_uparse", "lib/src/parser.c: source_from_buffer, cypher_uparse_each"]}
{"id": "C13", "title": "Full parse terminates", "statement": "cypher_uparse_each / cypher_fparse_each (hence cypher_uparse, cypher_fparse) return for every input, flag word, configuration and callback: no rule of the Cypher grammar can loop or recurse without consuming input.", "quantifier": "all byte strings, all flag words, all callbacks", "why_tests_cant": "A looping grammar rule may need one particular input; 300+ rules interact.", "anchors": ["lib/src/parser.c: parse_each, parse_one", "lib/src/parser.leg: all rules"]}
{"id": "C14", "title": "Full parse never rejects an input", "statement": "The entry rules succeed on every input (invalid syntax is turned into error nodes), so a parse only fails through memory exhaustion, an internal constructor rejection, or the callback.", "quantifier": "all byte strings, both entry rules", "why_tests_cant": "Any one input with no matching alternative would break it.", "anchors": ["lib/src/parser.c: parse_one", "lib/src/parser.leg: directive, statement, skip rules"]}
{"id": "C15", "title": "Full parse segments tile the input", "statement": "The ranges of successive segments passed to the callback of cypher_parse_each are contiguous: the first starts at the configured initial position, each next one starts where the previous ended; the position stored in *last is the end of the last segment; if the parse ran to completion without being stopped the last segment ends at the end of input.", "quantifier": "all byte strings, all flag words, all callbacks, all initial positions", "why_tests_cant": "Error recovery skips input by many different rules; a byte consumed twice or never appears only for particular inputs.", "anchors": ["lib/src/parser.c: parse_each, finished, input_position"]}
{"id": "C16", "title": "Full parse positions are true line/column/offset", "statement": "Every position in a parse (node ranges, segment ranges, error positions) has offset, line and column equal to those obtained by counting bytes and newlines of the input before it.", "quantifier": "all byte strings, all positions reported", "why_tests_cant": "Line starts are side effects of speculative matching; each of several hundred rules must treat newlines consistently.", "anchors": ["lib/src/parser.c: line_start, backtrack_lines, input_position", "lib/src/parser.leg: EOL, escaped-symbolic-name, skip rules, string literals, comments"]}
{"id": "C17", "title": "AST child ranges nest in their parents", "statement": "For every AST node produced by a parse, range.start <= range.end, and the range of each child lies within its parent's range; successive siblings have non-decreasing starts; every node lies in its segment's range.", "quantifier": "all byte strings, all nodes of all parsed trees", "why_tests_cant": "Quantifies over all trees of all inputs.", "anchors": ["lib/src/parser.c: block_start_action, block_end_action, block_replace_action, block_merge_action, add_child"]}
{"id": "C18", "title": "Ordinals are a contiguous preorder numbering", "statement": "Within a segment, node ordinals are initial, initial+1, ... in preorder over the roots, without gaps or repeats; nnodes is the number of nodes; consecutive segments continue the numbering; the numbering starts at the configured initial ordinal.", "quantifier": "all forests of AST nodes, all sequences of segments", "why_tests_cant": "Trees are unbounded in depth and width.", "anchors": ["lib/src/ast.c: cypher_ast_set_ordinals", "lib/src/segment.c: cypher_parse_segment", "lib/src/parser.c: parse_each"]}
{"id": "C19", "title": "Parse result is the concatenation of the segments", "statement": "cypher_parse's result has as roots, errors and directives the concatenation, in order, of those of the segments, nnodes equal to the sum, and eof true exactly when some segment ended at end of input with a directive or an error.", "quantifier": "all sequences of segments", "why_tests_cant": "Arbitrary number of merges with growth of three arrays.", "anchors": ["lib/src/result.c: cp_result_merge_segment", "lib/src/parser.c: cypher_uparse, cypher_fparse, merge callback"]}
{"id": "C20", "title": "Full parse callback protocol", "statement": "cypher_parse_each invokes the callback once per non-empty segment in order until it returns non-zero; a positive value stops with result 0; a negative value is returned; CYPHER_PARSE_SINGLE delivers at most one segment; each segment is retained exactly during its callback unless the callback retains it.", "quantifier": "all inputs, flags and callbacks", "why_tests_cant": "Universally quantified over user code.", "anchors": ["lib/src/parser.c: parse_each", "lib/src/segment.c: cypher_parse_segment_retain, cypher_parse_segment_release"]}
{"id": "C21", "title": "Segment reference counting", "statement": "A segment's memory (errors, roots, the segment itself) is released exactly once, at the release that matches the last outstanding reference, for every balanced sequence of retain/release; it is usable until then.", "quantifier": "all sequences of retain and release operations", "why_tests_cant": "Histories are unbounded.", "anchors": ["lib/src/segment.c: cypher_parse_segment_retain, cypher_parse_segment_release"]}
{"id": "C22", "title": "Operator precedence and associativity", "statement": "Parsing an expression built from operators groups operands as prescribed by the operator table (precedence and associativity): the tree obtained from the minimally parenthesised text of an expression is that expression.", "quantifier": "all expression trees over the operators", "why_tests_cant": "Nesting is unbounded and the precedence stack is mutable state that backtracking does not undo.", "anchors": ["lib/src/parser.leg: expression, _expression, _atom", "lib/src/operators.c: operator table", "lib/src/parser.c: PREC_PUSH, PREC_CHK, PREC_POP"]}
{"id": "C23", "title": "Operator table is well formed", "statement": "Every operator constant has the precedence and associativity of the documented table, binary operators at the same level share associativity, and precedence levels are the documented total order.", "quantifier": "all operators of the library", "why_tests_cant": "A table-wide invariant needed by the expression parser.", "anchors": ["lib/src/operators.c", "lib/src/operators.h"]}
{"id": "C24", "title": "Block and precedence stacks stay balanced", "statement": "During a parse of any input, the internal stack disciplines asserted by the code (block stack, closed block, precedence stack, operator stack) hold, so no assertion of the parser aborts the process.", "quantifier": "all byte strings, both entry rules", "why_tests_cant": "Asserts fire only for the inputs that violate them; all interleavings of several hundred rules must be considered.", "anchors": ["lib/src/parser.c: parse_one, block_start_action, block_end_action, add_terminal, add_child, PREC_PUSH/POP", "lib/src/parser.leg"]}
{"id": "C25", "title": "Parser-built nodes satisfy constructor requirements", "statement": "For every input, every AST node constructor called by the parser gets arguments that satisfy its documented requirements (types, membership in children), so a parse never fails with EINVAL.", "quantifier": "all byte strings, all constructor calls", "why_tests_cant": "Each of ~110 constructors is reached through unboundedly many parses.", "anchors": ["lib/src/parser.c: node building functions", "lib/src/ast_*.c: constructors", "lib/src/astnode.h: REQUIRE_*"]}
{"id": "C26", "title": "Error message text", "statement": "The message of a parse error is 'Invalid input <char>: expected l1, ..., lk or ln' (or 'at end of input') where l1..ln are the distinct expectations recorded at the furthest failure position, in order of first recording; the computed buffer size is exact, so the message is never truncated and nothing is written out of bounds.", "quantifier": "all sequences of recorded potential errors, all labels, all characters, both colorizations", "why_tests_cant": "Label lists are unbounded; buffer arithmetic must be exact for all of them.", "anchors": ["lib/src/errors.c: cp_et_note_potential_error, cp_et_reify_potentials, report_error"]}
{"id": "C27", "title": "Only the furthest failure is reported", "statement": "Among the potential errors noted since the last report, exactly those at the greatest offset are reported, at that position, and errors are produced in strictly increasing offset order.", "quantifier": "all sequences of note/clear/reify operations", "why_tests_cant": "Depends on the full history of notes.", "anchors": ["lib/src/errors.c: cp_et_note_potential_error, cp_et_clear_potentials, cp_et_reify_potentials"]}
{"id": "C28", "title": "Every skipped piece of input is reported as an error", "statement": "If a parse result contains an error node (skipped input), then at least one parse error is reported for that segment, and conversely.", "quantifier": "all byte strings", "why_tests_cant": "Relates speculative error notes to recovered nodes over all inputs.", "anchors": ["lib/src/parser.c: skip/error actions", "lib/src/errors.c", "lib/src/parser.leg: skip rules"]}
{"id": "C29", "title": "Error context", "statement": "The context of an error is a window of the single input line containing the error position, at most the requested width, with '...' marking truncated ends, and the context offset identifies the character at the error position within that window.", "quantifier": "all buffers, all offsets, all widths", "why_tests_cant": "Boundary arithmetic over all line lengths and offsets.", "anchors": ["lib/src/util.c: line_context", "lib/src/parser.c: finished"]}
{"id": "C30", "title": "Annotations behave as a map", "statement": "For any interleaving of attach/get/remove on any contexts and nodes, freeing of contexts and freeing of nodes, cypher_astnode_get_annotation returns exactly the data most recently attached for that (context,node) pair and not removed or freed since, else NULL.", "quantifier": "all operation histories over any number of contexts and nodes", "why_tests_cant": "Doubly linked lists shared by two owners; all histories matter.", "anchors": ["lib/src/annotation.c", "lib/src/annotation.h", "lib/src/ast.c: cypher_ast_free, cypher_astnode_release"]}
{"id": "C31", "title": "Annotation release handler runs exactly once per annotation", "statement": "Each annotation still attached when its node or its context is freed is passed to the context's release handler exactly once, with its node, the context's userdata and its data; annotations that were replaced (and handed back through the `previous` out-parameter) or removed (and returned) are never passed, and no other operation calls a handler.", "quantifier": "all operation histories", "why_tests_cant": "Exactly-once over all histories and both destruction orders.", "anchors": ["lib/src/annotation.c: cp_release_annotation, cypher_ast_annotation_context_free", "lib/src/cypher-parser.h.in: release handler documentation"]}
{"id": "C32", "title": "Cloning an AST preserves it", "statement": "cypher_ast_clone returns a structurally equal, fully disjoint tree (same types, values, ranges, roles) for every tree.", "quantifier": "all AST trees", "why_tests_cant": "Requires every node type's clone function to be right for every shape.", "anchors": ["lib/src/ast.c: cypher_ast_clone", "lib/src/astnode.h: child_index", "lib/src/ast_*.c: clone"]}
{"id": "C33", "title": "instanceof is a partial order given by the documented hierarchy", "statement": "cypher_astnode_instanceof(n,t) holds iff t is n's type or a (transitive) ancestor; every type is an instance of itself; every type has a name.", "quantifier": "all node types", "why_tests_cant": "Must hold for the closure over the whole table.", "anchors": ["lib/src/ast.c: cypher_astnode_vts, cypher_astnode_instanceof, cypher_astnode_typestr", "lib/src/ast_*.c: parents"]}
{"id": "C34", "title": "Constructors enforce child membership", "statement": "A node constructor succeeds only if every referenced node is among the given children and has the required type; otherwise it returns NULL with EINVAL and takes no ownership.", "quantifier": "all argument combinations", "why_tests_cant": "The argument space is unbounded.", "anchors": ["lib/src/astnode.h: REQUIRE_CHILD, REQUIRE_CHILD_ALL, REQUIRE_CONTAINS_ALL"]}
{"id": "C35", "title": "String literal decoding", "statement": "The value of a string literal node is the literal's text with each escape sequence replaced by the character it denotes; every byte string without NUL can be written as a literal that parses back to it.", "quantifier": "all string literals", "why_tests_cant": "Escape decoding must be right for every byte sequence.", "anchors": ["lib/src/parser.leg: string-literal, escaped-char rules", "lib/src/parser.c: strbuf_append_* functions"]}
{"id": "C36", "title": "detailstr length protocol", "statement": "Printing the detail string of a node into a buffer of size n writes at most n bytes, and returns the length of the full string independent of n; what is written is a prefix of the full string.", "quantifier": "all nodes and all buffer sizes", "why_tests_cant": "Each of ~100 printers must respect the protocol for every size.", "anchors": ["lib/src/ast_*.c: detailstr", "lib/src/ast.c: snprint_sequence, cypher_astnode_detailstr"]}
{"id": "C37", "title": "Reallocating printers return the complete text", "statement": "snprintf_realloc (and the detail-string variant) leave in the buffer the complete NUL-terminated text, for every text and initial capacity.", "quantifier": "all texts, all initial buffers and capacities", "why_tests_cant": "Boundary between length and capacity.", "anchors": ["lib/src/util.c: snprintf_realloc", "lib/src/ast.c: cypher_astnode_detailstr_realloc"]}
{"id": "C38", "title": "Growable vector is a list", "statement": "Any sequence of push/pop/clear/get/set operations on the growable vector behaves as on a list, never touches memory outside the allocated block, and a failed allocation leaves the contents unchanged.", "quantifier": "all operation histories including allocation failures", "why_tests_cant": "Growth boundaries and failure points over all histories.", "anchors": ["lib/src/vector.c", "lib/src/vector.h"]}
{"id": "C39", "title": "String buffer accumulates exactly what is appended", "statement": "Any sequence of appends yields a buffer holding the concatenation, NUL-terminated, with capacity strictly larger than the length.", "quantifier": "all append histories", "why_tests_cant": "Capacity arithmetic for all sizes.", "anchors": ["lib/src/string_buffer.c", "lib/src/string_buffer.h"]}
{"id": "C40", "title": "Printed AST lists every node once in preorder", "statement": "cypher_ast_fprint prints one line per node in preorder, indented by depth, with its ordinal, range and type name, and column widths sufficient to align all lines.", "quantifier": "all ASTs", "why_tests_cant": "Unbounded trees; width arithmetic uses logarithms.", "anchors": ["lib/src/ast.c: cypher_ast_fprint, cypher_ast_fprintv"]}
{"id": "C41", "title": "Allocation failure is safe", "statement": "If any allocation during a parse fails, the parse returns an error, everything allocated so far is freed exactly once and nothing is used after free.", "quantifier": "all inputs and all points of allocation failure", "why_tests_cant": "The failure point ranges over every allocation of every parse.", "anchors": ["lib/src/parser.c: parse_one, parse_each cleanup, abort_malloc", "lib/src/segment.c", "lib/src/result.c"]}
{"id": "C42", "title": "Configuration translates the parse", "statement": "Starting with initial position p and initial ordinal o gives the same segments, trees and errors as the default configuration with every position translated by p and every ordinal by o.", "quantifier": "all inputs, all initial positions and ordinals", "why_tests_cant": "Equivariance over all inputs.", "anchors": ["lib/src/parser.c: parse_each", "lib/src/parser_config.c"]}
{"id": "C43", "title": "Comments are preserved in the AST", "statement": "Every comment skipped by the grammar in an accepted construct appears as a comment node whose text is the text between its delimiters.", "quantifier": "all inputs", "why_tests_cant": "Comments can be placed between any two tokens.", "anchors": ["lib/src/parser.leg: line-comment, block-comment", "lib/src/parser.c: line_comment, block_comment"]}
{"id": "C44", "title": "Flags: statements only", "statement": "With CYPHER_PARSE_ONLY_STATEMENTS no client command is ever produced, by either parser.", "quantifier": "all inputs", "why_tests_cant": "Over all inputs.", "anchors": ["lib/src/parser.c: parse_each", "lib/src/quick_parser.c: parse"]}
{"id": "C45", "title": "Skipped input is preserved", "statement": "Every stretch of input that error recovery skips within a segment appears in the AST as an error node with exactly the skipped text, at the position of that text, and error nodes have no other origin.", "quantifier": "all inputs, configurations, flags and callbacks", "why_tests_cant": "Recovery can start and resynchronise at any byte of any input.", "anchors": ["lib/src/parser.leg: skip-to-directive, skip-to-statement, skip-to-clause", "lib/src/parser.c: skip", "lib/src/cypher-parser.h.in: cypher_ast_error"]}
{"id": "C46", "title": "The input buffer is never overrun", "statement": "However the input is delivered, reading more of it never writes past the end of the parser's input buffer, and each read is given room for at least one byte.", "quantifier": "all sources that write no more than they are given room for, all sequences of reads and of dropping parsed input", "why_tests_cant": "The fill level at each read depends on the whole history of reads and segments.", "anchors": ["lib/src/parser.c: source, source_from_stream, source_from_buffer", "lib/src/quick_parser.c: source, source_from_stream, source_from_buffer", "leg runtime: yyrefill, yyCommit"]}
{"id": "C47", "title": "Colorization changes only error messages", "statement": "Two parses of the same input that differ only in the configured colorization return the same value, the same segments and trees and the same errors (number, positions, contexts); the messages differ only in the color codes around their parts.", "quantifier": "all inputs, all pairs of colorizations, all flags and initial positions", "why_tests_cant": "Both runs must take the same course on every input.", "anchors": ["lib/src/parser_config.c: cypher_parser_config_set_error_colorization", "lib/src/errors.c: cp_et_reify_potentials, error_report", "lib/src/parser.c: parse_each"]}
{"id": "C48", "title": "Names, numbers and parameters hold their input", "statement": "Every string, number, name, label, type, property, function, procedure, index and parameter node of a parse holds the value that the input in its range stands for (escapes decoded, backquotes, colons, blanks and comments removed), and every such literal or name that the grammar matched has exactly one node.", "quantifier": "all inputs, flags and configurations; all nodes of all segments", "why_tests_cant": "The texts pass through a shared string buffer and block stack that backtracking and nested rules also use; only for all inputs is it excluded that one text leaks into another.", "anchors": ["lib/src/parser.leg: identifier, string-literal, integer-literal, float-literal, parameter, label, function-name, return-projection", "lib/src/parser.c: strbuf_append, strbuf_append_block, _block_start_action, _block_end_action, block_identifier"]}
{"id": "C49", "title": "Accessors return what the constructors were given", "statement": "An accessor applied to a node of its type returns the constructor argument it is documented to return: the node or null, the flag, the operator, the string, the length of the array, the element at an index or null from the length on. For a named or shortest path the elements are those of the path inside. Applied to a node of another type it fails an assertion. Applied to any node of a parse it returns, with a descendant if it returns a node, and a string it returns is the whole text of the node.", "quantifier": "all 230 accessors, all constructors, arguments and indexes; all nodes of all segments of all parses", "why_tests_cant": "The 230 accessors times the arguments and indexes cannot be enumerated, and the tests of the library read only some fields of some nodes; an index past the end or the wrong structure member shows only for particular nodes.", "anchors": ["lib/src/cypher-parser.h.in: accessors of AST nodes", "lib/src/ast_*.c: constructors, accessors, cypher_ast_map", "lib/src/ast_list_comprehension.c, ast_pattern_path.c: accessors through virtual tables", "lib/src/astnode.h: REQUIRE_TYPE"]}
{"id": "C50", "title": "cypher-lint succeeds exactly on inputs without errors and reports each error once", "statement": "Unless an option ends the run, cypher-lint exits with status 0 if every input can be opened and parses without errors, and 1 otherwise. Standard error receives, for each error of each input in order, the name of the input, line, column, message, context and a caret under the offending character, and nothing else except the name of an argument that cannot be opened. Standard output receives nothing without --ast and with it the trees of the inputs, one line per node. Dumping, streaming, width and output colors change neither the status nor the reports. The program always returns, reads every argument, and a status of 0 means that no input was skipped.", "quantifier": "all lists of options and arguments, all contents of files and of standard input", "why_tests_cant": "The library has no test of the program; the set of inputs, of their errors and of the combinations of options is unbounded.", "anchors": ["linter/src/cypher-lint.c: main, process, process_streamed, process_all, parse_callback, print_error"]}
{"id": "C51", "title": "A statement is read as what it says", "statement": "The text of a statement (options, hints, clauses with their patterns and expressions, or a schema command) parses without errors to one statement node whose tree has exactly the clauses, patterns, names, directions, ranges, projections, orders, flags and expressions that the text denotes, in order; and no text has two readings.", "quantifier": "all statements of any length and nesting, all their texts (spellings, quotings, parentheses), all configurations, flags and callbacks", "why_tests_cant": "The grammar is ordered choice with backtracking: an alternative tried earlier can take over the text of another construct for particular combinations of clauses only, and those combinations are unbounded. The tests of the library fix one or two texts per clause.", "anchors": ["lib/src/parser.leg: directive, statement, query, clause, match, pattern, rel-pattern, set-item, call, schema-command", "lib/src/parser.c: cypher_uparse, the *_action functions and astnode constructors called by the grammar"]}
{"id": "C52", "title": "A script is read statement by statement", "statement": "A text of several statements and client commands with white space between them, and with empty statements, parses without errors to one directive per statement or command, in the order of the text, each with exactly its tree; the callback gets one segment per statement or command and otherwise only segments with nothing in them; parsing two scripts written one after the other gives the directives of the first followed by those of the second; and when only a single one is asked for, the first is given whatever follows it.", "quantifier": "all lists of statements and commands of any length, all their texts and all white space between them, all configurations and callbacks that go on, all texts after the first for the single flag", "why_tests_cant": "The state of the parser (buffers, error tracking, operators, line starts, the previous result) is carried from one statement to the next, so the reading of a statement could depend on all earlier ones; tests run scripts of two or three statements.", "anchors": ["lib/src/parser.c: parse_each, parse_one, parse_all_callback", "lib/src/parser.leg: directive, statement, _, WS, EOL", "lib/src/result.c: cp_result_merge_segment"]}
{"id": "C53", "title": "Client commands are read as what they say", "statement": "The text of a client command (a colon, a name and arguments, each plain or quoted, up to a semicolon or the end of the line) parses without errors to exactly one directive, a command node whose name and arguments are the strings that the words stand for, in order; no text stands for two commands.", "quantifier": "all names and all lists of arguments of any length, all their texts, all configurations with or without the single flag, without CYPHER_PARSE_ONLY_STATEMENTS", "why_tests_cant": "There are infinitely many words and argument lists; quoting, escapes, and the end of a word interact with white space, comments and the end of the command.", "anchors": ["lib/src/parser.leg: client-command, client-command-name, client-command-arg, client-arg-string, unquoted, quoted, line-end", "lib/src/parser.c: _command, strbuf_string", "lib/src/ast_command.c: cypher_ast_command"]}
