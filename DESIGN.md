# Formal model of libcypher-parser in Rocq (Coq 8.16.1)

The deliverable is `rocq/theories`.  Files named `*Model.v` (and the generated
`*Grammar.v`) contain only definitions, each citing the lines of `/repo` it
models; `*Spec.v` files contain the small independent specifications the
theorems are stated against; `*Proofs.v` files contain lemmas; `Prop*.v`
contain the property theorems, most closed by `exact`, each followed by
`Print Assumptions`, with non-vacuity `Example`s beside them.

## Plan per property

| Id | What is modelled | How it is proved |
|----|------------------|------------------|
| C01 | leg (PEG) interpreter with fuel, quick grammar as data, driver loop `parse` | sound well-formedness check of PEG grammars (no left recursion, no nullable loop body), run by computation on the grammar; explicit fuel bound |
| C02 | same | semantic lemmas on the quick grammar: the body loop stops only where the terminator matches |
| C03 | same, incl. buffer compaction | invariant over rounds of the driver |
| C04 | same | each round: language of `-`, `--` characterised by an inductive spec |
| C05 | same | equivalence with an independent tokeniser |
| C06 | `line_start`, `backtrack_lines`, `input_position` | generic newline-safety analysis of PEG grammars, proved sound, run on the grammar |
| C07 | EOF thunks | induction over rounds |
| C08 | driver with callback oracle | induction over rounds |
| C09 | same | expected refuted: trailing blanks before EOF, comment glued to last token |
| C10 | driver | induction over rounds |
| C11 | interpreter over a lazily refilled buffer (`yyrefill`) | simulation with the interpreter over the whole input |
| C12 | `source_from_buffer` | holds up to the first chunk (1024), expected refuted above: the buffer pointer is never advanced |
| C13 | full grammar (generated data) | same analysis as C01 |
| C14 | full grammar | sound "never fails" analysis |
| C15 | `parse_each`, `parse_one`, `finished` | invariant over rounds |
| C16 | as C06 on the full grammar | positive for inputs without back-ticks; refuted for new-lines inside back-ticks |
| C17 | thunk list, block stack machine | invariant of the block machine over arbitrary position-monotone thunk lists |
| C18 | `cypher_ast_set_ordinals`, `cypher_parse_segment` | structural induction |
| C19 | `cp_result_merge_segment` | induction over segments |
| C20 | `parse_each` with callback oracle; the segment objects in the allocation model, with a callback that inspects the segments alive | induction over rounds |
| C21 | retain/release | induction over histories |
| C22 | expression rules, operator table | token-level round trip, then grammar |
| C23 | operator table | finite sweep |
| C24 | block machine, precedence stack | static analysis of the grammar, proved sound; refuted where a comment is inside a function name |
| C25 | AST constructors | static typing of semantic actions |
| C26, C27 | errors.c | refinement to a list specification; buffer arithmetic |
| C28 | error nodes and notes | see C14/C27; expected refuted |
| C29 | line_context | arithmetic proof |
| C30, C31 | annotation.c as pointer structure | refinement to finite map; refuted for the node argument of the handler |
| C32 | clone, child_index | refuted (child_index diverges); positive where it does not |
| C33 | vt table | finite sweep; refuted for COMMENT |
| C34 | REQUIRE_* macros | refuted for the _ALL forms, positive for the others |
| C35 | string literal rules and actions | round trip |
| C36, C37 | snprintf protocol | compositional proof; refuted at width = capacity |
| C38, C39 | vector, string buffer | refinement to lists |
| C40 | fprint | structural induction; log10(0) noted |
| C41 | ownership | refuted (double free of the top block); positive elsewhere |
| C42 | driver | equivariance by induction |
| C43 | comment rules | positions and text of comment nodes |
| C44 | flags | grammar reachability |
| C45 | trace of a match, error nodes | the multiset of error nodes equals that of the uses of the skipping rules |
| C46 | `yyrefill`, `source()` | arithmetic invariant of the buffer |
| C47 | colours of `errors.c` | relational induction over machine, actions and driver |
| C48 | trace of a match, leaf nodes | as C45, for the rules of literals and names |
| C49 | structures, constructors' assignments and accessors, generated from ast_*.c; documentation table generated from cypher-parser.h.in | case analysis over accessors and types; induction on nested paths; texts of parses by C43, C45, C48 |
| C50 | the program cypher-lint over the model of `cypher_fparse_each` | induction over arguments and segments; the errors of a parse always have a context and a message without NUL |
| C51 | grammar and actions of whole statements | texts of statements given by an inductive specification; a checked symbolic run of the grammar over texts with holes, proved sound, and induction over the statement |
| C52 | the loop over statements and client commands, with white space and empty statements | texts of scripts given by an inductive specification; each round read by the symbolic run of C51 with an arbitrary rest, then induction over the script through the loop |
| C53 | grammar and actions of client commands | as C51: each word by induction over its plain, escaped and quoted parts, arguments by induction, then one round of C52 |

## What is modelled, file by file

| Source | Model | Modelled | Left out |
|---|---|---|---|
| leg's templates (`yymatch*`, `yyText`, `yyDo`, `yyDone`, `yyrefill`, value stack) | Peg.v, BufModel.v, CypherExec.v | matching, backtracking, thunks, `yy->__` and the value stack, the lazily filled buffer | debugging output |
| quick_parser.leg, quick_parser.c | QuickModel.v, SourceModel.v | every rule, the driver, both sources | allocation failure; getters of the segment |
| parser.leg | CypherGrammar.v (generated, every rule and action) | all | |
| parser.c:479-813 | CypherMatch.v, CypherParse.v, SourceModel.v, AllocModel.v | parse_each, parse_one, parse, callbacks, error recovery, line starts, operators and precedences | errno; `fparse_each` and `fparse` only as the source of a stream |
| parser.c:816-1101 | CypherExec.v | finished, block_*, sequence, string buffer actions | |
| parser.c:1102-3109 | CypherBuild.v (generated) | every node-creating function: constructor, arguments, their order | |
| parser_config.c | CypherParse.v | initial position, ordinal, colours, as a record | the functions that allocate, set and free it |
| operators.c | OperModel.v | the table | |
| errors.c | ErrModel.v, MemModel.v | potentials, reification, messages, exact buffer | getters that return one field |
| util.c | ErrModel.v (line_context), PrintModel.v (snprintf_realloc) | both functions | |
| vector.c, string_buffer.c | MemModel.v | all, with failing allocations | overflow of sizes |
| segment.c, result.c | CypherParse.v (contents), OwnModel.v (memory) | construction, retain, release, merge | getters that return one field |
| annotation.c | AnnotModel.v | all, as doubly linked cells in a heap | handlers that call back into the library |
| ast.c | AstModel.v, PrintModel.v, AnnotModel.v | type tests, ordinals, free, clone, fprint | getters that return one field |
| ast_*.c constructors | AstTypes.v (generated) | every REQUIRE, every parameter | struct layout |
| ast_*.c clone | AstModel.v | child_index, index arithmetic, the bugs found | |
| ast_*.c detailstr | DetailModel.v (generated) | every format | |
| ast_*.c accessors | AccessModel.v (generated) | all 230, the structures, what the constructors store in them, the virtual tables, cypher_ast_map | overflow of indexes; parent and child pointers of ast.c |
| linter/src/cypher-lint.c | LintModel.v | main, options, process, process_streamed, process_all, the callback, print_error | getopt_long, isatty, fopen and strerror (their results are given); failing allocations and output |
| lib/test/check_*.c | Conformance.v (generated) | 149 of the 150 calls of cypher_parse, with what the test asserts of the outcome | the call in check_annotation.c, and tests of other APIs (cypher_parse_each, quick parser, util, error tracking) |

The debug build is modelled: a violated `REQUIRE` aborts (util.h:35-38).  Numbers
are `nat` except where wrapping matters (reference counts, C21).  Time and the
depth of the C stack are not modelled.

Generated files are written by scripts from the text of `/repo` and are plain
definitions; that the transcription is right is part of the trusted base and is
tested by Conformance.v, where the model, evaluated by the kernel, reproduces the
print-outs of the library's own tests.

Static analyses (PegWf.v, PegMode.v, LineSafe.v, LineLevels.v, Flow.v) are not
trusted: each has a soundness theorem and is run on the grammar by `vm_compute`.
The tables in CypherTables.v and CypherLineTables.v are certificates that are
checked there.

## Where the specifications are

| Claims | Specification | Theorems |
|---|---|---|
| C01-C10 | QuickSpec.v | PropQuick.v |
| C13-C20 | CypherSpec.v (C20 also AllocSpec.v) | PropCypher.v (C20 also PropAlloc.v) |
| C11, C12, C46 | SourceSpec.v | PropSource.v |
| C21, C30, C31 | OwnSpec.v, AnnotSpec.v | PropMemory.v |
| C22 | ExprSpec.v, TermSpec.v | PropExpr.v |
| C23 | OperSpec.v | PropOper.v |
| C24, C25 | SafeSpec.v, AstSpec.v | PropSafe.v |
| C26, C27, C29, C38, C39 | UtilSpec.v | PropUtil.v |
| C28 | CypherSpec.v | PropSkip.v |
| C32-C34 | AstSpec.v | PropAst.v |
| C35, C48 | LexSpec.v | PropLex.v, PropExpr.v |
| C36, C37, C40 | PrintSpec.v | PropPrint.v, PropSafe.v |
| C41 | AllocSpec.v | PropAlloc.v |
| C42, C47 | ShiftSpec.v, ColorSpec.v | PropShift.v |
| C43-C45 | TraceSpec.v | PropTrace.v |
| C49 | AccessSpec.v | PropAccess.v |
| C50 | LintSpec.v | PropLint.v |
| C51 | StmtSpec.v, StmtShow.v, ExprSpec.v, TermSpec.v | PropStmt.v |
| C52 | ScriptSpec.v, StmtSpec.v, CommandSpec.v | PropScript.v |
| C53 | CommandSpec.v, LexSpec.v | PropScript.v |

## Properties that the code does not have

Each is proved of the model by a theorem ending in `_refuted`, with a witness.

| Id | What is false |
|---|---|
| C09 | trailing blanks before the end of input, and a comment after the last token, are part of the text |
| C11 | the context of an error depends on how much of the input has been read |
| C12 | `source_from_buffer` does not advance its pointer: beyond 1024 bytes the beginning of the buffer is parsed again |
| C16 | a new line inside a backquoted name is not counted |
| C17 | the starts of siblings may decrease |
| C21 | 2^32 references wrap to none |
| C22 | `(NOT $p) - -(NOT $q)` is read as a pattern, the list `[a IN b]` as a comprehension |
| C24 | a comment inside a function or procedure name, and a new line in a backquoted name of an option, abort |
| C25 | eight parameters of constructors are not as documented in some parse |
| C27, C28 | the position of the furthest failure survives `cp_et_clear_potentials`: input skipped in a later segment may be reported by no error |
| C29 | corner cases of the context at the ends of lines |
| C31 | the release handler gets NULL for the node |
| C32 | nodes of six types, among them RETURN and WITH, are never copied correctly; the call on the tree of `RETURN 1;` does not return |
| C33 | COMMENT is missing in the table of types |
| C34 | `REQUIRE_CONTAINS_ALL` checks nothing; eleven parameters are checked less than documented |
| C36 | some detail texts are not terminated by NUL (the proved property does not claim it) |
| C37, C40 | a text whose length is the capacity loses its last byte |
| C38, C41 | a failed growth of a vector writes through NULL |
| C39 | the string buffer is not NUL-terminated |
| C41 | a failed allocation inside parse_one frees the top block twice |
| C49 | a string with a NUL byte is cut there by the accessor of its node |
| C50 | cypher-lint succeeds on some input that is skipped (from C28), aborts on some (from C24), and does not read the files after one that cannot be opened |
| C51 | a blank before the comma between two parts of a pattern is an error (`CREATE () , ()`), although blanks are skipped before all other commas |

Further findings without a property of their own: `log10(0)` in fprint (an
arbitrary value in the model), `INFIX-OP` contains NOT, a dead alternative in
rel-varlength, exponential backtracking of nested patterns, the failure path of
the comparison constructor leaks, `cypher_parse_segment_get_root` is declared but
not defined.

## Trusted base

* Coq 8.16.1 kernel (including `vm_compute`).
* `Print Assumptions` of every theorem named in MANIFEST.json (and of all others
  in the `Prop*.v` files) prints "Closed under the global context": no axiom is
  used.
* Loading the standard library brings the declarations of `Coq.ssr.ssrunder`
  into the environment (`Over_rel`, `over_rel`,
  `over_rel_done`, `Under_rel`, `Under_relE`, `Under_rel_from_rel` and
  `under_rel_done` of `Coq.ssr.ssrunder.Under_rel`), which vcheck lists as axioms.  No theorem depends on them.
* No functor or module type is defined, no axiom is declared, no kernel check is
  switched off.
* The reading of the C code: definitions cite what they model.
* The leg parser generator (peg/leg 0.1.18) is not part of the repository; its
  code templates are modelled from knowledge of that tool (see `Peg.v`).
* The scripts that generated CypherGrammar.v, CypherBuild.v, AstTypes.v,
  DetailModel.v, AccessModel.v, Conformance.v and of the tables of AccessSpec.v (see above).

## Testing the theorems

`seeded/LOG.jsonl` lists wrong programs: each is an edit of a definition of the
model, the claim that it breaks, and the theorems that no longer prove.
