(** * Vocabulary of the full parser: operators, deferred actions, match-time code

    What the code fragments of lib/src/parser.leg can say, as data; their
    meaning is in CypherModel.v (match time) and CypherExec.v (deferred). *)
From Verif Require Import Peg.

(** lib/src/operators.c: one constructor per CYPHER_OP_* *)
Inductive oper : Set :=
  | OP_OR | OP_XOR | OP_AND | OP_NOT | OP_EQUAL
  | OP_NEQUAL | OP_LT | OP_GT | OP_LTE | OP_GTE
  | OP_PLUS | OP_MINUS | OP_MULT | OP_DIV | OP_MOD
  | OP_POW | OP_UNARY_PLUS | OP_UNARY_MINUS | OP_REGEX | OP_IN
  | OP_STARTS_WITH | OP_ENDS_WITH | OP_CONTAINS | OP_IS_NULL | OP_IS_NOT_NULL
  | OP_MAP_PROJECTION | OP_SUBSCRIPT | OP_PROPERTY | OP_LABEL.

(** lib/src/cypher-parser.h.in: enum cypher_rel_direction *)
Inductive dir : Set := INBOUND | OUTBOUND | BIDIRECTIONAL.

(** A node argument in an action: a rule variable (by number) or NULL. *)
Inductive arg : Set := AVar (k : nat) | ANull.

(** The node-creating calls of parser.leg (macros of parser.c:160-477), with
    their literal arguments; the line is that of the function in parser.c. *)
Inductive ctor : Set :=
| K_all_nodes_scan   (* parser.c:1475 *)
| K_all_predicate   (* parser.c:2570 *)
| K_all_rels_scan   (* parser.c:1558 *)
| K_any_predicate   (* parser.c:2590 *)
| K_apply_all_operator (_ : bool)   (* parser.c:2238 *)
| K_apply_operator (_ : bool)   (* parser.c:2215 *)
| K_binary_operator   (* parser.c:2164 *)
| K_block_identifier   (* parser.c:2706 *)
| K_block_string   (* parser.c:3027 *)
| K_call_clause   (* parser.c:2006 *)
| K_case_expression   (* parser.c:2486 *)
| K_collection_literal   (* parser.c:2650 *)
| K_command   (* parser.c:2994 *)
| K_comparison_operator   (* parser.c:2184 *)
| K_create_clause (_ : bool)   (* parser.c:1728 *)
| K_create_index   (* parser.c:1184 *)
| K_create_node_prop_constraint (_ : bool)   (* parser.c:1228 *)
| K_create_rel_prop_constraint (_ : bool)   (* parser.c:1272 *)
| K_cypher_option   (* parser.c:1124 *)
| K_cypher_option_param   (* parser.c:1146 *)
| K_delete (_ : bool)   (* parser.c:1852 *)
| K_drop_index   (* parser.c:1206 *)
| K_drop_node_prop_constraint (_ : bool)   (* parser.c:1250 *)
| K_drop_rel_prop_constraint (_ : bool)   (* parser.c:1294 *)
| K_explain_option   (* parser.c:1166 *)
| K_extract   (* parser.c:2529 *)
| K_false_literal   (* parser.c:2761 *)
| K_filter   (* parser.c:2509 *)
| K_foreach_clause   (* parser.c:1937 *)
| K_labels_operator   (* parser.c:2420 *)
| K_list_comprehension   (* parser.c:2442 *)
| K_load_csv (_ : bool)   (* parser.c:1367 *)
| K_map_literal   (* parser.c:2672 *)
| K_map_projection   (* parser.c:2318 *)
| K_map_projection_all_properties   (* parser.c:2401 *)
| K_map_projection_identifier   (* parser.c:2381 *)
| K_map_projection_literal   (* parser.c:2340 *)
| K_map_projection_property   (* parser.c:2361 *)
| K_match_clause (_ : bool)   (* parser.c:1577 *)
| K_merge_clause   (* parser.c:1662 *)
| K_merge_properties   (* parser.c:1810 *)
| K_named_path   (* parser.c:2865 *)
| K_node_id_lookup   (* parser.c:1453 *)
| K_node_index_lookup   (* parser.c:1411 *)
| K_node_index_query   (* parser.c:1432 *)
| K_node_pattern   (* parser.c:2927 *)
| K_none_predicate   (* parser.c:2630 *)
| K_null_literal   (* parser.c:2770 *)
| K_on_create   (* parser.c:1706 *)
| K_on_match   (* parser.c:1684 *)
| K_order_by   (* parser.c:2083 *)
| K_pattern   (* parser.c:2843 *)
| K_pattern_comprehension   (* parser.c:2464 *)
| K_pattern_path   (* parser.c:2905 *)
| K_profile_option   (* parser.c:1175 *)
| K_projection   (* parser.c:2063 *)
| K_property_operator   (* parser.c:2278 *)
| K_query   (* parser.c:1316 *)
| K_range   (* parser.c:2974 *)
| K_reduce   (* parser.c:2549 *)
| K_rel_id_lookup   (* parser.c:1536 *)
| K_rel_index_lookup   (* parser.c:1494 *)
| K_rel_index_query   (* parser.c:1515 *)
| K_rel_pattern (_ : dir)   (* parser.c:2950 *)
| K_remove_clause   (* parser.c:1874 *)
| K_remove_labels   (* parser.c:1915 *)
| K_remove_property   (* parser.c:1896 *)
| K_return_clause (_ : bool) (_ : bool)   (* parser.c:2039 *)
| K_set_all_properties   (* parser.c:1790 *)
| K_set_clause   (* parser.c:1748 *)
| K_set_labels   (* parser.c:1830 *)
| K_set_property   (* parser.c:1770 *)
| K_shortest_path (_ : bool)   (* parser.c:2885 *)
| K_simple_rel_pattern (_ : dir)   (* parser.c:_rel_pattern, macro 455-456 *)
| K_single_predicate   (* parser.c:2610 *)
| K_skip   (* parser.c:3070 *)
| K_slice_operator   (* parser.c:2298 *)
| K_sort_item (_ : bool)   (* parser.c:2105 *)
| K_start_clause   (* parser.c:1389 *)
| K_statement   (* parser.c:1102 *)
| K_strbuf_float   (* parser.c:2742 *)
| K_strbuf_function_name   (* parser.c:2810 *)
| K_strbuf_identifier   (* parser.c:2695 *)
| K_strbuf_index_name   (* parser.c:2821 *)
| K_strbuf_integer   (* parser.c:2732 *)
| K_strbuf_label   (* parser.c:2779 *)
| K_strbuf_parameter   (* parser.c:2721 *)
| K_strbuf_proc_name   (* parser.c:2832 *)
| K_strbuf_prop_name   (* parser.c:2799 *)
| K_strbuf_reltype   (* parser.c:2789 *)
| K_strbuf_string   (* parser.c:3038 *)
| K_subscript_operator   (* parser.c:2258 *)
| K_true_literal   (* parser.c:2752 *)
| K_unary_operator   (* parser.c:2144 *)
| K_union_clause (_ : bool)   (* parser.c:2125 *)
| K_unwind_clause   (* parser.c:1986 *)
| K_using_index   (* parser.c:1600 *)
| K_using_join   (* parser.c:1620 *)
| K_using_periodic_commit   (* parser.c:1348 *)
| K_using_scan   (* parser.c:1642 *)
| K_with_clause (_ : bool) (_ : bool)   (* parser.c:1960 *)
| K_line_comment   (* parser.c:3048 *)
| K_block_comment.   (* parser.c:3059 *)

(** Right-hand sides: a variable/NULL, or a node-creating call with its node
    arguments.  K_unary_operator and K_binary_operator additionally take
    op_pop() as their first argument (parser.c:171). *)
Inductive rhs : Set := RArg (a : arg) | RMk (c : ctor) (l : list arg).

(** Left-hand sides: [$$] (leg's yy->__) or a rule variable. *)
Inductive lhs : Set := LRet | LVar (k : nat).

(** Statements inside a deferred action. *)
Inductive stmt : Set :=
| SFinished                         (* finished(yy) *)
| SResult (a : arg)                 (* yy->result = .. *)
| SSeqAdd (a : arg)                 (* sequence_add(..) *)
| SStrReset                         (* strbuf_reset() *)
| SStrAppend (s : bytes)            (* strbuf_append("..", n) *)
| SStrBlock                         (* strbuf_append_block() *)
| SEof                              (* yy->eof = true *)
| SOpPush (o : oper)                (* op_push(..) *)
| SDrop (r : rhs)                   (* a call whose value is ignored *)
| SLet (l : lhs) (r : rhs)          (* l = r *)
| SIfNotIdent (a : arg) (s : stmt). (* parser.leg:383-388 *)

(** Deferred actions (thunks). *)
Inductive action : Set :=
| TPush (n : nat)                   (* leg: yyPush *)
| TPop (n : nat)                    (* leg: yyPop *)
| TSet (k : nat)                    (* leg: yySet *)
| TBlockStart                       (* parser.c:890 block_start_action *)
| TBlockEnd                         (* parser.c:927 block_end_action *)
| TBlockReplace                     (* parser.c:940 block_replace_action *)
| TBlockMerge                       (* parser.c:957 block_merge_action *)
| TDo (l : list stmt).              (* the action's C code *)

(** Match-time code: predicates [&{..}], [<], [>] and error blocks [~{..}]. *)
Inductive pred : Set :=
| QDo (a : action)                  (* yyDo(yy, a, yy->__pos, 0), 1 *)
| QOp (o : oper)                    (* OP(..) parser.c:168 *)
| QPrecChk                          (* PREC_CHK() parser.c:177-178 *)
| QPrecPush                         (* PREC_PUSH() parser.c:173 *)
| QPrecPushTop                      (* PREC_PUSH_TOP() parser.c:175 *)
| QPrecPop                          (* PREC_POP() parser.c:179 *)
| QLineStart                        (* line_start(yy), 1 *)
| QRecordError                      (* record_error(yy), 1 *)
| QConst (b : bool)                 (* 1 or 0 *)
| QErr (label : bytes).             (* ERR(label) parser.c:152 *)
