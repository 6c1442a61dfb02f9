(** * The node-creating functions of parser.c

    Generated from parser.c:1102-3078: for each function the constructor it
    calls and where each argument comes from. *)
From Verif Require Import Peg CypherSyntax AstTypes.

Inductive bparam : Set :=
| BArg (k : nat)                     (* k-th node argument *)
| BNull                              (* NULL *)
| BLitB (b : bool)                   (* literal flag *)
| BLitD (d : dir)                    (* literal direction *)
| BSeq                               (* prev_block->sequence *)
| BSeqWhile (b : bool) (t : asttype) (* its longest prefix of nodes for which instanceof t is b *)
| BSeqAfter (b : bool) (t : asttype) (* the rest *)
| BSeqPairs                          (* its first 2*(size/2) nodes (parser.c:2491-2494) *)
| BSeqEven                           (* the same, the size being asserted even (parser.c:2677) *)
| BOpPop                             (* op_pop() (parser.c:171) *)
| BChainOps                          (* top size-1 operators (parser.c:2189-2195) *)
| BStrbuf                            (* string_buffer *)
| BBlock                             (* text between buffer_start and buffer_end *)
| BBlockTrim.                        (* the same without surrounding isspace() bytes *)

Definition build_call (c : ctor) : asttype * list bparam :=
  match c with
  | K_all_nodes_scan => (T_ALL_NODES_SCAN, [BArg 0])   (* parser.c:1475-1490 *)
  | K_all_predicate => (T_ALL, [BArg 0; BArg 1; BArg 2])   (* parser.c:2570-2586 *)
  | K_all_rels_scan => (T_ALL_RELS_SCAN, [BArg 0])   (* parser.c:1558-1573 *)
  | K_any_predicate => (T_ANY, [BArg 0; BArg 1; BArg 2])   (* parser.c:2590-2606 *)
  | K_apply_all_operator x0 => (T_APPLY_ALL_OPERATOR, [BArg 0; BLitB x0])   (* parser.c:2238-2254 *)
  | K_apply_operator x0 => (T_APPLY_OPERATOR, [BArg 0; BLitB x0; BSeq])   (* parser.c:2215-2234 *)
  | K_binary_operator => (T_BINARY_OPERATOR, [BOpPop; BArg 0; BArg 1])   (* parser.c:2164-2180 *)
  | K_block_identifier => (T_IDENTIFIER, [BBlockTrim])   (* parser.c:2706-2717 *)
  | K_block_string => (T_STRING, [BBlock])   (* parser.c:3027-3034 *)
  | K_call_clause => (T_CALL, [BArg 0; BSeqWhile false T_PROJECTION; BSeqAfter false T_PROJECTION; BArg 1])   (* parser.c:2006-2035 *)
  | K_case_expression => (T_CASE, [BArg 0; BSeqPairs; BArg 1])   (* parser.c:2486-2505 *)
  | K_collection_literal => (T_COLLECTION, [BSeq])   (* parser.c:2650-2668 *)
  | K_command => (T_COMMAND, [BArg 0; BSeq])   (* parser.c:2994-3014 *)
  | K_comparison_operator => (T_COMPARISON, [BChainOps; BSeq])   (* parser.c:2184-2211 *)
  | K_create_clause x0 => (T_CREATE, [BLitB x0; BArg 0])   (* parser.c:1728-1744 *)
  | K_create_index => (T_CREATE_NODE_PROPS_INDEX, [BArg 0; BSeq])   (* parser.c:1184-1202 *)
  | K_create_node_prop_constraint x0 => (T_CREATE_NODE_PROP_CONSTRAINT, [BArg 0; BArg 1; BArg 2; BLitB x0])   (* parser.c:1228-1246 *)
  | K_create_rel_prop_constraint x0 => (T_CREATE_REL_PROP_CONSTRAINT, [BArg 0; BArg 1; BArg 2; BLitB x0])   (* parser.c:1272-1290 *)
  | K_cypher_option => (T_CYPHER_OPTION, [BArg 0; BSeq])   (* parser.c:1124-1142 *)
  | K_cypher_option_param => (T_CYPHER_OPTION_PARAM, [BArg 0; BArg 1])   (* parser.c:1146-1162 *)
  | K_delete x0 => (T_DELETE, [BLitB x0; BSeq])   (* parser.c:1852-1870 *)
  | K_drop_index => (T_DROP_NODE_PROPS_INDEX, [BArg 0; BSeq])   (* parser.c:1206-1224 *)
  | K_drop_node_prop_constraint x0 => (T_DROP_NODE_PROP_CONSTRAINT, [BArg 0; BArg 1; BArg 2; BLitB x0])   (* parser.c:1250-1268 *)
  | K_drop_rel_prop_constraint x0 => (T_DROP_REL_PROP_CONSTRAINT, [BArg 0; BArg 1; BArg 2; BLitB x0])   (* parser.c:1294-1312 *)
  | K_explain_option => (T_EXPLAIN_OPTION, [])   (* parser.c:1166-1171 *)
  | K_extract => (T_EXTRACT, [BArg 0; BArg 1; BArg 2])   (* parser.c:2529-2545 *)
  | K_false_literal => (T_FALSE, [])   (* parser.c:2761-2766 *)
  | K_filter => (T_FILTER, [BArg 0; BArg 1; BArg 2])   (* parser.c:2509-2525 *)
  | K_foreach_clause => (T_FOREACH, [BArg 0; BArg 1; BSeq])   (* parser.c:1937-1956 *)
  | K_labels_operator => (T_LABELS_OPERATOR, [BArg 0; BSeq])   (* parser.c:2420-2438 *)
  | K_list_comprehension => (T_LIST_COMPREHENSION, [BArg 0; BArg 1; BArg 2; BArg 3])   (* parser.c:2442-2460 *)
  | K_load_csv x0 => (T_LOAD_CSV, [BLitB x0; BArg 0; BArg 1; BArg 2])   (* parser.c:1367-1385 *)
  | K_map_literal => (T_MAP, [BSeqEven])   (* parser.c:2672-2691 *)
  | K_map_projection => (T_MAP_PROJECTION, [BArg 0; BSeq])   (* parser.c:2318-2336 *)
  | K_map_projection_all_properties => (T_MAP_PROJECTION_ALL_PROPERTIES, [])   (* parser.c:2401-2416 *)
  | K_map_projection_identifier => (T_MAP_PROJECTION_IDENTIFIER, [BArg 0])   (* parser.c:2381-2397 *)
  | K_map_projection_literal => (T_MAP_PROJECTION_LITERAL, [BArg 0; BArg 1])   (* parser.c:2340-2357 *)
  | K_map_projection_property => (T_MAP_PROJECTION_PROPERTY, [BArg 0])   (* parser.c:2361-2377 *)
  | K_match_clause x0 => (T_MATCH, [BLitB x0; BArg 0; BSeq; BArg 1])   (* parser.c:1577-1596 *)
  | K_merge_clause => (T_MERGE, [BArg 0; BSeq])   (* parser.c:1662-1680 *)
  | K_merge_properties => (T_MERGE_PROPERTIES, [BArg 0; BArg 1])   (* parser.c:1810-1826 *)
  | K_named_path => (T_NAMED_PATH, [BArg 0; BArg 1])   (* parser.c:2865-2881 *)
  | K_node_id_lookup => (T_NODE_ID_LOOKUP, [BArg 0; BSeq])   (* parser.c:1453-1471 *)
  | K_node_index_lookup => (T_NODE_INDEX_LOOKUP, [BArg 0; BArg 1; BArg 2; BArg 3])   (* parser.c:1411-1428 *)
  | K_node_index_query => (T_NODE_INDEX_QUERY, [BArg 0; BArg 1; BArg 2])   (* parser.c:1432-1449 *)
  | K_node_pattern => (T_NODE_PATTERN, [BArg 0; BSeq; BArg 1])   (* parser.c:2927-2946 *)
  | K_none_predicate => (T_NONE, [BArg 0; BArg 1; BArg 2])   (* parser.c:2630-2646 *)
  | K_null_literal => (T_NULL, [])   (* parser.c:2770-2775 *)
  | K_on_create => (T_ON_CREATE, [BSeq])   (* parser.c:1706-1724 *)
  | K_on_match => (T_ON_MATCH, [BSeq])   (* parser.c:1684-1702 *)
  | K_order_by => (T_ORDER_BY, [BSeq])   (* parser.c:2083-2101 *)
  | K_pattern => (T_PATTERN, [BSeq])   (* parser.c:2843-2861 *)
  | K_pattern_comprehension => (T_PATTERN_COMPREHENSION, [BArg 0; BArg 1; BArg 2; BArg 3])   (* parser.c:2464-2482 *)
  | K_pattern_path => (T_PATTERN_PATH, [BSeq])   (* parser.c:2905-2923 *)
  | K_profile_option => (T_PROFILE_OPTION, [])   (* parser.c:1175-1180 *)
  | K_projection => (T_PROJECTION, [BArg 0; BArg 1])   (* parser.c:2063-2079 *)
  | K_property_operator => (T_PROPERTY_OPERATOR, [BArg 0; BArg 1])   (* parser.c:2278-2294 *)
  | K_query => (T_QUERY, [BSeqWhile true T_QUERY_OPTION; BSeqAfter true T_QUERY_OPTION])   (* parser.c:1316-1344 *)
  | K_range => (T_RANGE, [BArg 0; BArg 1])   (* parser.c:2974-2990 *)
  | K_reduce => (T_REDUCE, [BArg 0; BArg 1; BArg 2; BArg 3; BArg 4])   (* parser.c:2549-2566 *)
  | K_rel_id_lookup => (T_REL_ID_LOOKUP, [BArg 0; BSeq])   (* parser.c:1536-1554 *)
  | K_rel_index_lookup => (T_REL_INDEX_LOOKUP, [BArg 0; BArg 1; BArg 2; BArg 3])   (* parser.c:1494-1511 *)
  | K_rel_index_query => (T_REL_INDEX_QUERY, [BArg 0; BArg 1; BArg 2])   (* parser.c:1515-1532 *)
  | K_rel_pattern x0 => (T_REL_PATTERN, [BLitD x0; BArg 0; BSeq; BArg 2; BArg 1])   (* parser.c:2950-2970 *)
  | K_remove_clause => (T_REMOVE, [BSeq])   (* parser.c:1874-1892 *)
  | K_remove_labels => (T_REMOVE_LABELS, [BArg 0; BSeq])   (* parser.c:1915-1933 *)
  | K_remove_property => (T_REMOVE_PROPERTY, [BArg 0])   (* parser.c:1896-1911 *)
  | K_return_clause x0 x1 => (T_RETURN, [BLitB x0; BLitB x1; BSeq; BArg 0; BArg 1; BArg 2])   (* parser.c:2039-2059 *)
  | K_set_all_properties => (T_SET_ALL_PROPERTIES, [BArg 0; BArg 1])   (* parser.c:1790-1806 *)
  | K_set_clause => (T_SET, [BSeq])   (* parser.c:1748-1766 *)
  | K_set_labels => (T_SET_LABELS, [BArg 0; BSeq])   (* parser.c:1830-1848 *)
  | K_set_property => (T_SET_PROPERTY, [BArg 0; BArg 1])   (* parser.c:1770-1786 *)
  | K_shortest_path x0 => (T_SHORTEST_PATH, [BLitB x0; BArg 0])   (* parser.c:2885-2901 *)
  | K_simple_rel_pattern x0 => (T_REL_PATTERN, [BLitD x0; BNull; BSeq; BNull; BNull])   (* parser.c:2950-2970 *)
  | K_single_predicate => (T_SINGLE, [BArg 0; BArg 1; BArg 2])   (* parser.c:2610-2626 *)
  | K_skip => (T_ERROR, [BBlock])   (* parser.c:3070-3077 *)
  | K_slice_operator => (T_SLICE_OPERATOR, [BArg 0; BArg 1; BArg 2])   (* parser.c:2298-2314 *)
  | K_sort_item x0 => (T_SORT_ITEM, [BArg 0; BLitB x0])   (* parser.c:2105-2121 *)
  | K_start_clause => (T_START, [BSeq; BArg 0])   (* parser.c:1389-1407 *)
  | K_statement => (T_STATEMENT, [BSeq; BArg 0])   (* parser.c:1102-1120 *)
  | K_strbuf_float => (T_FLOAT, [BStrbuf])   (* parser.c:2742-2748 *)
  | K_strbuf_function_name => (T_FUNCTION_NAME, [BStrbuf])   (* parser.c:2810-2817 *)
  | K_strbuf_identifier => (T_IDENTIFIER, [BStrbuf])   (* parser.c:2695-2702 *)
  | K_strbuf_index_name => (T_INDEX_NAME, [BStrbuf])   (* parser.c:2821-2828 *)
  | K_strbuf_integer => (T_INTEGER, [BStrbuf])   (* parser.c:2732-2738 *)
  | K_strbuf_label => (T_LABEL, [BStrbuf])   (* parser.c:2779-2785 *)
  | K_strbuf_parameter => (T_PARAMETER, [BStrbuf])   (* parser.c:2721-2728 *)
  | K_strbuf_proc_name => (T_PROC_NAME, [BStrbuf])   (* parser.c:2832-2839 *)
  | K_strbuf_prop_name => (T_PROP_NAME, [BStrbuf])   (* parser.c:2799-2806 *)
  | K_strbuf_reltype => (T_RELTYPE, [BStrbuf])   (* parser.c:2789-2795 *)
  | K_strbuf_string => (T_STRING, [BStrbuf])   (* parser.c:3038-3044 *)
  | K_subscript_operator => (T_SUBSCRIPT_OPERATOR, [BArg 0; BArg 1])   (* parser.c:2258-2274 *)
  | K_true_literal => (T_TRUE, [])   (* parser.c:2752-2757 *)
  | K_unary_operator => (T_UNARY_OPERATOR, [BOpPop; BArg 0])   (* parser.c:2144-2160 *)
  | K_union_clause x0 => (T_UNION, [BLitB x0])   (* parser.c:2125-2140 *)
  | K_unwind_clause => (T_UNWIND, [BArg 0; BArg 1])   (* parser.c:1986-2002 *)
  | K_using_index => (T_USING_INDEX, [BArg 0; BArg 1; BArg 2])   (* parser.c:1600-1616 *)
  | K_using_join => (T_USING_JOIN, [BSeq])   (* parser.c:1620-1638 *)
  | K_using_periodic_commit => (T_USING_PERIODIC_COMMIT, [BArg 0])   (* parser.c:1348-1363 *)
  | K_using_scan => (T_USING_SCAN, [BArg 0; BArg 1])   (* parser.c:1642-1658 *)
  | K_with_clause x0 x1 => (T_WITH, [BLitB x0; BLitB x1; BSeq; BArg 0; BArg 1; BArg 2; BArg 3])   (* parser.c:1960-1982 *)
  | K_line_comment => (T_LINE_COMMENT, [BBlock])   (* parser.c:3048-3055 *)
  | K_block_comment => (T_BLOCK_COMMENT, [BBlock])   (* parser.c:3059-3066 *)
  end.
