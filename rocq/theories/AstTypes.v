(** * AST node types, virtual tables and constructor requirements

    Generated from lib/src/ast.c and lib/src/ast_*.c (one table row per C
    definition, each citing its source). *)
From Verif Require Import Peg.

(** ast.c:17-139, 295-382: the CYPHER_AST_* type constants, in the order of
    struct cypher_astnode_vts.  The same names stand for the virtual tables
    cypher_*_astnode_vt. *)
Inductive asttype : Set :=
| T_STATEMENT
| T_STATEMENT_OPTION
| T_CYPHER_OPTION
| T_CYPHER_OPTION_PARAM
| T_EXPLAIN_OPTION
| T_PROFILE_OPTION
| T_SCHEMA_COMMAND
| T_CREATE_NODE_PROPS_INDEX
| T_DROP_NODE_PROPS_INDEX
| T_CREATE_NODE_PROP_CONSTRAINT
| T_DROP_NODE_PROP_CONSTRAINT
| T_CREATE_REL_PROP_CONSTRAINT
| T_DROP_REL_PROP_CONSTRAINT
| T_QUERY
| T_QUERY_OPTION
| T_USING_PERIODIC_COMMIT
| T_QUERY_CLAUSE
| T_LOAD_CSV
| T_START
| T_START_POINT
| T_NODE_INDEX_LOOKUP
| T_NODE_INDEX_QUERY
| T_NODE_ID_LOOKUP
| T_ALL_NODES_SCAN
| T_REL_INDEX_LOOKUP
| T_REL_INDEX_QUERY
| T_REL_ID_LOOKUP
| T_ALL_RELS_SCAN
| T_MATCH
| T_MATCH_HINT
| T_USING_INDEX
| T_USING_JOIN
| T_USING_SCAN
| T_MERGE
| T_MERGE_ACTION
| T_ON_MATCH
| T_ON_CREATE
| T_CREATE
| T_SET
| T_SET_ITEM
| T_SET_PROPERTY
| T_SET_ALL_PROPERTIES
| T_MERGE_PROPERTIES
| T_SET_LABELS
| T_DELETE
| T_REMOVE
| T_REMOVE_ITEM
| T_REMOVE_LABELS
| T_REMOVE_PROPERTY
| T_FOREACH
| T_WITH
| T_UNWIND
| T_CALL
| T_RETURN
| T_PROJECTION
| T_ORDER_BY
| T_SORT_ITEM
| T_UNION
| T_EXPRESSION
| T_UNARY_OPERATOR
| T_BINARY_OPERATOR
| T_COMPARISON
| T_APPLY_OPERATOR
| T_APPLY_ALL_OPERATOR
| T_PROPERTY_OPERATOR
| T_SUBSCRIPT_OPERATOR
| T_SLICE_OPERATOR
| T_LABELS_OPERATOR
| T_LIST_COMPREHENSION
| T_PATTERN_COMPREHENSION
| T_CASE
| T_FILTER
| T_EXTRACT
| T_REDUCE
| T_ALL
| T_ANY
| T_SINGLE
| T_NONE
| T_COLLECTION
| T_MAP
| T_IDENTIFIER
| T_PARAMETER
| T_STRING
| T_INTEGER
| T_FLOAT
| T_BOOLEAN
| T_TRUE
| T_FALSE
| T_NULL
| T_LABEL
| T_RELTYPE
| T_PROP_NAME
| T_FUNCTION_NAME
| T_INDEX_NAME
| T_PROC_NAME
| T_PATTERN
| T_NAMED_PATH
| T_SHORTEST_PATH
| T_PATTERN_PATH
| T_NODE_PATTERN
| T_REL_PATTERN
| T_RANGE
| T_COMMAND
| T_COMMENT
| T_LINE_COMMENT
| T_BLOCK_COMMENT
| T_ERROR
| T_MAP_PROJECTION
| T_MAP_PROJECTION_SELECTOR
| T_MAP_PROJECTION_LITERAL
| T_MAP_PROJECTION_PROPERTY
| T_MAP_PROJECTION_IDENTIFIER
| T_MAP_PROJECTION_ALL_PROPERTIES.

Definition all_types : list asttype :=
  [T_STATEMENT; T_STATEMENT_OPTION; T_CYPHER_OPTION; T_CYPHER_OPTION_PARAM; T_EXPLAIN_OPTION; T_PROFILE_OPTION; T_SCHEMA_COMMAND; T_CREATE_NODE_PROPS_INDEX; T_DROP_NODE_PROPS_INDEX; T_CREATE_NODE_PROP_CONSTRAINT; T_DROP_NODE_PROP_CONSTRAINT; T_CREATE_REL_PROP_CONSTRAINT; T_DROP_REL_PROP_CONSTRAINT; T_QUERY; T_QUERY_OPTION; T_USING_PERIODIC_COMMIT; T_QUERY_CLAUSE; T_LOAD_CSV; T_START; T_START_POINT; T_NODE_INDEX_LOOKUP; T_NODE_INDEX_QUERY; T_NODE_ID_LOOKUP; T_ALL_NODES_SCAN; T_REL_INDEX_LOOKUP; T_REL_INDEX_QUERY; T_REL_ID_LOOKUP; T_ALL_RELS_SCAN; T_MATCH; T_MATCH_HINT; T_USING_INDEX; T_USING_JOIN; T_USING_SCAN; T_MERGE; T_MERGE_ACTION; T_ON_MATCH; T_ON_CREATE; T_CREATE; T_SET; T_SET_ITEM; T_SET_PROPERTY; T_SET_ALL_PROPERTIES; T_MERGE_PROPERTIES; T_SET_LABELS; T_DELETE; T_REMOVE; T_REMOVE_ITEM; T_REMOVE_LABELS; T_REMOVE_PROPERTY; T_FOREACH; T_WITH; T_UNWIND; T_CALL; T_RETURN; T_PROJECTION; T_ORDER_BY; T_SORT_ITEM; T_UNION; T_EXPRESSION; T_UNARY_OPERATOR; T_BINARY_OPERATOR; T_COMPARISON; T_APPLY_OPERATOR; T_APPLY_ALL_OPERATOR; T_PROPERTY_OPERATOR; T_SUBSCRIPT_OPERATOR; T_SLICE_OPERATOR; T_LABELS_OPERATOR; T_LIST_COMPREHENSION; T_PATTERN_COMPREHENSION; T_CASE; T_FILTER; T_EXTRACT; T_REDUCE; T_ALL; T_ANY; T_SINGLE; T_NONE; T_COLLECTION; T_MAP; T_IDENTIFIER; T_PARAMETER; T_STRING; T_INTEGER; T_FLOAT; T_BOOLEAN; T_TRUE; T_FALSE; T_NULL; T_LABEL; T_RELTYPE; T_PROP_NAME; T_FUNCTION_NAME; T_INDEX_NAME; T_PROC_NAME; T_PATTERN; T_NAMED_PATH; T_SHORTEST_PATH; T_PATTERN_PATH; T_NODE_PATTERN; T_REL_PATTERN; T_RANGE; T_COMMAND; T_COMMENT; T_LINE_COMMENT; T_BLOCK_COMMENT; T_ERROR; T_MAP_PROJECTION; T_MAP_PROJECTION_SELECTOR; T_MAP_PROJECTION_LITERAL; T_MAP_PROJECTION_PROPERTY; T_MAP_PROJECTION_IDENTIFIER; T_MAP_PROJECTION_ALL_PROPERTIES].

Definition type_idx (t : asttype) : nat :=
  match t with
  | T_STATEMENT => 0
  | T_STATEMENT_OPTION => 1
  | T_CYPHER_OPTION => 2
  | T_CYPHER_OPTION_PARAM => 3
  | T_EXPLAIN_OPTION => 4
  | T_PROFILE_OPTION => 5
  | T_SCHEMA_COMMAND => 6
  | T_CREATE_NODE_PROPS_INDEX => 7
  | T_DROP_NODE_PROPS_INDEX => 8
  | T_CREATE_NODE_PROP_CONSTRAINT => 9
  | T_DROP_NODE_PROP_CONSTRAINT => 10
  | T_CREATE_REL_PROP_CONSTRAINT => 11
  | T_DROP_REL_PROP_CONSTRAINT => 12
  | T_QUERY => 13
  | T_QUERY_OPTION => 14
  | T_USING_PERIODIC_COMMIT => 15
  | T_QUERY_CLAUSE => 16
  | T_LOAD_CSV => 17
  | T_START => 18
  | T_START_POINT => 19
  | T_NODE_INDEX_LOOKUP => 20
  | T_NODE_INDEX_QUERY => 21
  | T_NODE_ID_LOOKUP => 22
  | T_ALL_NODES_SCAN => 23
  | T_REL_INDEX_LOOKUP => 24
  | T_REL_INDEX_QUERY => 25
  | T_REL_ID_LOOKUP => 26
  | T_ALL_RELS_SCAN => 27
  | T_MATCH => 28
  | T_MATCH_HINT => 29
  | T_USING_INDEX => 30
  | T_USING_JOIN => 31
  | T_USING_SCAN => 32
  | T_MERGE => 33
  | T_MERGE_ACTION => 34
  | T_ON_MATCH => 35
  | T_ON_CREATE => 36
  | T_CREATE => 37
  | T_SET => 38
  | T_SET_ITEM => 39
  | T_SET_PROPERTY => 40
  | T_SET_ALL_PROPERTIES => 41
  | T_MERGE_PROPERTIES => 42
  | T_SET_LABELS => 43
  | T_DELETE => 44
  | T_REMOVE => 45
  | T_REMOVE_ITEM => 46
  | T_REMOVE_LABELS => 47
  | T_REMOVE_PROPERTY => 48
  | T_FOREACH => 49
  | T_WITH => 50
  | T_UNWIND => 51
  | T_CALL => 52
  | T_RETURN => 53
  | T_PROJECTION => 54
  | T_ORDER_BY => 55
  | T_SORT_ITEM => 56
  | T_UNION => 57
  | T_EXPRESSION => 58
  | T_UNARY_OPERATOR => 59
  | T_BINARY_OPERATOR => 60
  | T_COMPARISON => 61
  | T_APPLY_OPERATOR => 62
  | T_APPLY_ALL_OPERATOR => 63
  | T_PROPERTY_OPERATOR => 64
  | T_SUBSCRIPT_OPERATOR => 65
  | T_SLICE_OPERATOR => 66
  | T_LABELS_OPERATOR => 67
  | T_LIST_COMPREHENSION => 68
  | T_PATTERN_COMPREHENSION => 69
  | T_CASE => 70
  | T_FILTER => 71
  | T_EXTRACT => 72
  | T_REDUCE => 73
  | T_ALL => 74
  | T_ANY => 75
  | T_SINGLE => 76
  | T_NONE => 77
  | T_COLLECTION => 78
  | T_MAP => 79
  | T_IDENTIFIER => 80
  | T_PARAMETER => 81
  | T_STRING => 82
  | T_INTEGER => 83
  | T_FLOAT => 84
  | T_BOOLEAN => 85
  | T_TRUE => 86
  | T_FALSE => 87
  | T_NULL => 88
  | T_LABEL => 89
  | T_RELTYPE => 90
  | T_PROP_NAME => 91
  | T_FUNCTION_NAME => 92
  | T_INDEX_NAME => 93
  | T_PROC_NAME => 94
  | T_PATTERN => 95
  | T_NAMED_PATH => 96
  | T_SHORTEST_PATH => 97
  | T_PATTERN_PATH => 98
  | T_NODE_PATTERN => 99
  | T_REL_PATTERN => 100
  | T_RANGE => 101
  | T_COMMAND => 102
  | T_COMMENT => 103
  | T_LINE_COMMENT => 104
  | T_BLOCK_COMMENT => 105
  | T_ERROR => 106
  | T_MAP_PROJECTION => 107
  | T_MAP_PROJECTION_SELECTOR => 108
  | T_MAP_PROJECTION_LITERAL => 109
  | T_MAP_PROJECTION_PROPERTY => 110
  | T_MAP_PROJECTION_IDENTIFIER => 111
  | T_MAP_PROJECTION_ALL_PROPERTIES => 112
  end.

Definition type_eqb (a b : asttype) : bool := Nat.eqb (type_idx a) (type_idx b).

(** ast.c:141-255 cypher_astnode_vts: the virtual table registered for a type
    constant; the initialiser has no entry for [.comment], which therefore
    holds NULL. *)
Definition vts (t : asttype) : option asttype :=
  match t with
  | T_COMMENT => None
  | t => Some t
  end.

(** [.parents] of each virtual table. *)
Definition vt_parents (v : asttype) : list asttype :=
  match v with
  | T_STATEMENT => []   (* ast_statement.c:36 *)
  | T_STATEMENT_OPTION => []   (* ast_statement_option.c:21 *)
  | T_CYPHER_OPTION => [T_STATEMENT_OPTION]   (* ast_cypher_option.c:41 *)
  | T_CYPHER_OPTION_PARAM => []   (* ast_cypher_option_param.c:37 *)
  | T_EXPLAIN_OPTION => [T_STATEMENT_OPTION]   (* ast_explain_option.c:38 *)
  | T_PROFILE_OPTION => [T_STATEMENT_OPTION]   (* ast_profile_option.c:38 *)
  | T_SCHEMA_COMMAND => []   (* ast_schema_command.c:22 *)
  | T_CREATE_NODE_PROPS_INDEX => [T_SCHEMA_COMMAND]   (* ast_create_node_props_index.c:40 *)
  | T_DROP_NODE_PROPS_INDEX => [T_SCHEMA_COMMAND]   (* ast_drop_node_props_index.c:40 *)
  | T_CREATE_NODE_PROP_CONSTRAINT => [T_SCHEMA_COMMAND]   (* ast_create_node_prop_constraint.c:41 *)
  | T_DROP_NODE_PROP_CONSTRAINT => [T_SCHEMA_COMMAND]   (* ast_drop_node_prop_constraint.c:41 *)
  | T_CREATE_REL_PROP_CONSTRAINT => [T_SCHEMA_COMMAND]   (* ast_create_rel_prop_constraint.c:41 *)
  | T_DROP_REL_PROP_CONSTRAINT => [T_SCHEMA_COMMAND]   (* ast_drop_rel_prop_constraint.c:41 *)
  | T_QUERY => []   (* ast_query.c:39 *)
  | T_QUERY_OPTION => []   (* ast_query_option.c:21 *)
  | T_USING_PERIODIC_COMMIT => [T_QUERY_OPTION]   (* ast_using_periodic_commit.c:39 *)
  | T_QUERY_CLAUSE => []   (* ast_query_clause.c:21 *)
  | T_LOAD_CSV => [T_QUERY_CLAUSE]   (* ast_load_csv.c:41 *)
  | T_START => [T_QUERY_CLAUSE]   (* ast_start.c:40 *)
  | T_START_POINT => []   (* ast_start_point.c:22 *)
  | T_NODE_INDEX_LOOKUP => [T_START_POINT]   (* ast_node_index_lookup.c:41 *)
  | T_NODE_INDEX_QUERY => [T_START_POINT]   (* ast_node_index_query.c:40 *)
  | T_NODE_ID_LOOKUP => [T_START_POINT]   (* ast_node_id_lookup.c:40 *)
  | T_ALL_NODES_SCAN => [T_START_POINT]   (* ast_all_nodes_scan.c:38 *)
  | T_REL_INDEX_LOOKUP => [T_START_POINT]   (* ast_rel_index_lookup.c:41 *)
  | T_REL_INDEX_QUERY => [T_START_POINT]   (* ast_rel_index_query.c:40 *)
  | T_REL_ID_LOOKUP => [T_START_POINT]   (* ast_rel_id_lookup.c:40 *)
  | T_ALL_RELS_SCAN => [T_START_POINT]   (* ast_all_rels_scan.c:38 *)
  | T_MATCH => [T_QUERY_CLAUSE]   (* ast_match.c:42 *)
  | T_MATCH_HINT => []   (* ast_match_hint.c:21 *)
  | T_USING_INDEX => [T_MATCH_HINT]   (* ast_using_index.c:41 *)
  | T_USING_JOIN => [T_MATCH_HINT]   (* ast_using_join.c:40 *)
  | T_USING_SCAN => [T_MATCH_HINT]   (* ast_using_scan.c:40 *)
  | T_MERGE => [T_QUERY_CLAUSE]   (* ast_merge.c:40 *)
  | T_MERGE_ACTION => []   (* ast_merge_action.c:21 *)
  | T_ON_MATCH => [T_MERGE_ACTION]   (* ast_on_match.c:39 *)
  | T_ON_CREATE => [T_MERGE_ACTION]   (* ast_on_create.c:39 *)
  | T_CREATE => [T_QUERY_CLAUSE]   (* ast_create.c:39 *)
  | T_SET => [T_QUERY_CLAUSE]   (* ast_set.c:39 *)
  | T_SET_ITEM => []   (* ast_set_item.c:21 *)
  | T_SET_PROPERTY => [T_SET_ITEM]   (* ast_set_property.c:39 *)
  | T_SET_ALL_PROPERTIES => [T_SET_ITEM]   (* ast_set_all_properties.c:39 *)
  | T_MERGE_PROPERTIES => [T_SET_ITEM]   (* ast_merge_properties.c:39 *)
  | T_SET_LABELS => [T_SET_ITEM]   (* ast_set_labels.c:40 *)
  | T_DELETE => [T_QUERY_CLAUSE]   (* ast_delete.c:40 *)
  | T_REMOVE => [T_QUERY_CLAUSE]   (* ast_remove.c:39 *)
  | T_REMOVE_ITEM => []   (* ast_remove_item.c:21 *)
  | T_REMOVE_LABELS => [T_REMOVE_ITEM]   (* ast_remove_labels.c:40 *)
  | T_REMOVE_PROPERTY => [T_REMOVE_ITEM]   (* ast_remove_property.c:38 *)
  | T_FOREACH => [T_QUERY_CLAUSE]   (* ast_foreach.c:41 *)
  | T_WITH => [T_QUERY_CLAUSE]   (* ast_with.c:45 *)
  | T_UNWIND => [T_QUERY_CLAUSE]   (* ast_unwind.c:40 *)
  | T_CALL => [T_QUERY_CLAUSE]   (* ast_call.c:44 *)
  | T_RETURN => [T_QUERY_CLAUSE]   (* ast_return.c:44 *)
  | T_PROJECTION => []   (* ast_projection.c:36 *)
  | T_ORDER_BY => []   (* ast_order_by.c:36 *)
  | T_SORT_ITEM => []   (* ast_sort_item.c:36 *)
  | T_UNION => [T_QUERY_CLAUSE]   (* ast_union.c:38 *)
  | T_EXPRESSION => []   (* ast_expression.c:21 *)
  | T_UNARY_OPERATOR => [T_EXPRESSION]   (* ast_unary_operator.c:40 *)
  | T_BINARY_OPERATOR => [T_EXPRESSION]   (* ast_binary_operator.c:41 *)
  | T_COMPARISON => [T_EXPRESSION]   (* ast_comparison.c:42 *)
  | T_APPLY_OPERATOR => [T_EXPRESSION]   (* ast_apply_operator.c:42 *)
  | T_APPLY_ALL_OPERATOR => [T_EXPRESSION]   (* ast_apply_all_operator.c:40 *)
  | T_PROPERTY_OPERATOR => [T_EXPRESSION]   (* ast_property_operator.c:40 *)
  | T_SUBSCRIPT_OPERATOR => [T_EXPRESSION]   (* ast_subscript_operator.c:40 *)
  | T_SLICE_OPERATOR => [T_EXPRESSION]   (* ast_slice_operator.c:41 *)
  | T_LABELS_OPERATOR => [T_EXPRESSION]   (* ast_labels_operator.c:41 *)
  | T_LIST_COMPREHENSION => [T_EXPRESSION]   (* ast_list_comprehension.c:67 *)
  | T_PATTERN_COMPREHENSION => [T_EXPRESSION]   (* ast_pattern_comprehension.c:41 *)
  | T_CASE => [T_EXPRESSION]   (* ast_case.c:42 *)
  | T_FILTER => [T_LIST_COMPREHENSION]   (* ast_filter.c:49 *)
  | T_EXTRACT => [T_LIST_COMPREHENSION]   (* ast_extract.c:49 *)
  | T_REDUCE => [T_EXPRESSION]   (* ast_reduce.c:43 *)
  | T_ALL => [T_LIST_COMPREHENSION]   (* ast_all.c:49 *)
  | T_ANY => [T_LIST_COMPREHENSION]   (* ast_any.c:49 *)
  | T_SINGLE => [T_LIST_COMPREHENSION]   (* ast_single.c:49 *)
  | T_NONE => [T_LIST_COMPREHENSION]   (* ast_none.c:49 *)
  | T_COLLECTION => [T_EXPRESSION]   (* ast_collection.c:39 *)
  | T_MAP => [T_EXPRESSION]   (* ast_map.c:39 *)
  | T_IDENTIFIER => [T_EXPRESSION]   (* ast_identifier.c:38 *)
  | T_PARAMETER => [T_EXPRESSION]   (* ast_parameter.c:38 *)
  | T_STRING => [T_EXPRESSION]   (* ast_string.c:38 *)
  | T_INTEGER => [T_EXPRESSION]   (* ast_integer.c:38 *)
  | T_FLOAT => [T_EXPRESSION]   (* ast_float.c:38 *)
  | T_BOOLEAN => [T_EXPRESSION]   (* ast_boolean.c:24 *)
  | T_TRUE => [T_BOOLEAN]   (* ast_true.c:38 *)
  | T_FALSE => [T_BOOLEAN]   (* ast_false.c:38 *)
  | T_NULL => [T_EXPRESSION]   (* ast_null.c:38 *)
  | T_LABEL => []   (* ast_label.c:35 *)
  | T_RELTYPE => []   (* ast_reltype.c:35 *)
  | T_PROP_NAME => []   (* ast_prop_name.c:35 *)
  | T_FUNCTION_NAME => []   (* ast_function_name.c:35 *)
  | T_INDEX_NAME => []   (* ast_index_name.c:35 *)
  | T_PROC_NAME => []   (* ast_proc_name.c:35 *)
  | T_PATTERN => []   (* ast_pattern.c:36 *)
  | T_NAMED_PATH => [T_PATTERN_PATH]   (* ast_named_path.c:42 *)
  | T_SHORTEST_PATH => [T_EXPRESSION; T_PATTERN_PATH]   (* ast_shortest_path.c:42 *)
  | T_PATTERN_PATH => [T_EXPRESSION]   (* ast_pattern_path.c:58 *)
  | T_NODE_PATTERN => []   (* ast_node_pattern.c:38 *)
  | T_REL_PATTERN => []   (* ast_rel_pattern.c:40 *)
  | T_RANGE => []   (* ast_range.c:37 *)
  | T_COMMAND => []   (* ast_command.c:37 *)
  | T_COMMENT => []   (* ast_comment.c:21 *)
  | T_LINE_COMMENT => [T_COMMENT]   (* ast_line_comment.c:38 *)
  | T_BLOCK_COMMENT => [T_COMMENT]   (* ast_block_comment.c:38 *)
  | T_ERROR => []   (* ast_error.c:35 *)
  | T_MAP_PROJECTION => [T_EXPRESSION]   (* ast_map_projection.c:41 *)
  | T_MAP_PROJECTION_SELECTOR => []   (* ast_map_projection_selector.c:21 *)
  | T_MAP_PROJECTION_LITERAL => [T_MAP_PROJECTION_SELECTOR]   (* ast_map_projection_literal.c:39 *)
  | T_MAP_PROJECTION_PROPERTY => [T_MAP_PROJECTION_SELECTOR]   (* ast_map_projection_property.c:38 *)
  | T_MAP_PROJECTION_IDENTIFIER => [T_MAP_PROJECTION_SELECTOR]   (* ast_map_projection_identifier.c:38 *)
  | T_MAP_PROJECTION_ALL_PROPERTIES => [T_MAP_PROJECTION_SELECTOR]   (* ast_map_projection_all_properties.c:37 *)
  end.

(** [.name] of each virtual table ([None]: NULL). *)
Definition vt_name (v : asttype) : option bytes :=
  match v with
  | T_STATEMENT => Some (B "statement")
  | T_STATEMENT_OPTION => None
  | T_CYPHER_OPTION => Some (B "CYPHER")
  | T_CYPHER_OPTION_PARAM => Some (B "cypher parameter")
  | T_EXPLAIN_OPTION => Some (B "EXPLAIN")
  | T_PROFILE_OPTION => Some (B "PROFILE")
  | T_SCHEMA_COMMAND => None
  | T_CREATE_NODE_PROPS_INDEX => Some (B "CREATE INDEX")
  | T_DROP_NODE_PROPS_INDEX => Some (B "DROP INDEX")
  | T_CREATE_NODE_PROP_CONSTRAINT => Some (B "create node prop constraint")
  | T_DROP_NODE_PROP_CONSTRAINT => Some (B "drop node prop constraint")
  | T_CREATE_REL_PROP_CONSTRAINT => Some (B "create rel prop constraint")
  | T_DROP_REL_PROP_CONSTRAINT => Some (B "drop rel prop constraint")
  | T_QUERY => Some (B "query")
  | T_QUERY_OPTION => None
  | T_USING_PERIODIC_COMMIT => Some (B "USING PERIODIC_COMMIT")
  | T_QUERY_CLAUSE => None
  | T_LOAD_CSV => Some (B "LOAD CSV")
  | T_START => Some (B "START")
  | T_START_POINT => None
  | T_NODE_INDEX_LOOKUP => Some (B "node index lookup")
  | T_NODE_INDEX_QUERY => Some (B "node index query")
  | T_NODE_ID_LOOKUP => Some (B "node id lookup")
  | T_ALL_NODES_SCAN => Some (B "all nodes scan")
  | T_REL_INDEX_LOOKUP => Some (B "rel index lookup")
  | T_REL_INDEX_QUERY => Some (B "rel index query")
  | T_REL_ID_LOOKUP => Some (B "rel id lookup")
  | T_ALL_RELS_SCAN => Some (B "all rels scan")
  | T_MATCH => Some (B "MATCH")
  | T_MATCH_HINT => None
  | T_USING_INDEX => Some (B "USING INDEX")
  | T_USING_JOIN => Some (B "USING JOIN")
  | T_USING_SCAN => Some (B "USING SCAN")
  | T_MERGE => Some (B "MERGE")
  | T_MERGE_ACTION => None
  | T_ON_MATCH => Some (B "ON MATCH")
  | T_ON_CREATE => Some (B "ON CREATE")
  | T_CREATE => Some (B "CREATE")
  | T_SET => Some (B "SET")
  | T_SET_ITEM => None
  | T_SET_PROPERTY => Some (B "set property")
  | T_SET_ALL_PROPERTIES => Some (B "set all properties")
  | T_MERGE_PROPERTIES => Some (B "merge properties")
  | T_SET_LABELS => Some (B "set labels")
  | T_DELETE => Some (B "DELETE")
  | T_REMOVE => Some (B "REMOVE")
  | T_REMOVE_ITEM => None
  | T_REMOVE_LABELS => Some (B "remove labels")
  | T_REMOVE_PROPERTY => Some (B "remove property")
  | T_FOREACH => Some (B "FOREACH")
  | T_WITH => Some (B "WITH")
  | T_UNWIND => Some (B "UNWIND")
  | T_CALL => Some (B "CALL")
  | T_RETURN => Some (B "RETURN")
  | T_PROJECTION => Some (B "projection")
  | T_ORDER_BY => Some (B "ORDER BY")
  | T_SORT_ITEM => Some (B "sort item")
  | T_UNION => Some (B "UNION")
  | T_EXPRESSION => None
  | T_UNARY_OPERATOR => Some (B "unary operator")
  | T_BINARY_OPERATOR => Some (B "binary operator")
  | T_COMPARISON => Some (B "comparison")
  | T_APPLY_OPERATOR => Some (B "apply")
  | T_APPLY_ALL_OPERATOR => Some (B "apply all")
  | T_PROPERTY_OPERATOR => Some (B "property")
  | T_SUBSCRIPT_OPERATOR => Some (B "subscript")
  | T_SLICE_OPERATOR => Some (B "slice")
  | T_LABELS_OPERATOR => Some (B "has labels")
  | T_LIST_COMPREHENSION => Some (B "list comprehension")
  | T_PATTERN_COMPREHENSION => Some (B "pattern comprehension")
  | T_CASE => Some (B "case")
  | T_FILTER => Some (B "filter")
  | T_EXTRACT => Some (B "extract")
  | T_REDUCE => Some (B "reduce")
  | T_ALL => Some (B "all")
  | T_ANY => Some (B "any")
  | T_SINGLE => Some (B "single")
  | T_NONE => Some (B "none")
  | T_COLLECTION => Some (B "collection")
  | T_MAP => Some (B "map")
  | T_IDENTIFIER => Some (B "identifier")
  | T_PARAMETER => Some (B "parameter")
  | T_STRING => Some (B "string")
  | T_INTEGER => Some (B "integer")
  | T_FLOAT => Some (B "float")
  | T_BOOLEAN => None
  | T_TRUE => Some (B "TRUE")
  | T_FALSE => Some (B "FALSE")
  | T_NULL => Some (B "NULL")
  | T_LABEL => Some (B "label")
  | T_RELTYPE => Some (B "rel type")
  | T_PROP_NAME => Some (B "prop name")
  | T_FUNCTION_NAME => Some (B "function name")
  | T_INDEX_NAME => Some (B "index name")
  | T_PROC_NAME => Some (B "proc name")
  | T_PATTERN => Some (B "pattern")
  | T_NAMED_PATH => Some (B "named path")
  | T_SHORTEST_PATH => Some (B "shortestPath")
  | T_PATTERN_PATH => Some (B "pattern path")
  | T_NODE_PATTERN => Some (B "node pattern")
  | T_REL_PATTERN => Some (B "rel pattern")
  | T_RANGE => Some (B "range")
  | T_COMMAND => Some (B "command")
  | T_COMMENT => None
  | T_LINE_COMMENT => Some (B "line_comment")
  | T_BLOCK_COMMENT => Some (B "block_comment")
  | T_ERROR => Some (B "error")
  | T_MAP_PROJECTION => Some (B "map projection")
  | T_MAP_PROJECTION_SELECTOR => None
  | T_MAP_PROJECTION_LITERAL => Some (B "literal projection")
  | T_MAP_PROJECTION_PROPERTY => Some (B "property projection")
  | T_MAP_PROJECTION_IDENTIFIER => Some (B "identifier projection")
  | T_MAP_PROJECTION_ALL_PROPERTIES => Some (B "all properties projection")
  end.

(** Kinds of constructor parameters (children, nchildren and range, common to
    all constructors, are not listed; an array parameter and its count are one
    entry). *)
Inductive pkind : Set := KNode | KList | KBool | KDir | KOper | KOpers | KStr.

(** The REQUIRE* checks of the constructors (astnode.h:64-119, util.h REQUIRE);
    numbers are parameter positions. *)
Inductive req : Set :=
| RqChild (k : nat) (t : asttype)             (* REQUIRE_CHILD *)
| RqChildOpt (k : nat) (t : asttype)          (* REQUIRE_CHILD_OPTIONAL *)
| RqChildAll (k : nat) (t : asttype)          (* REQUIRE_CHILD_ALL *)
| RqChildAllHalf (k : nat) (t : asttype)      (* ast_case.c:58: only the first half *)
| RqType (k : nat) (t : asttype)              (* REQUIRE_TYPE *)
| RqTypeAll (k : nat) (t : asttype)           (* REQUIRE_TYPE_ALL *)
| RqContains (k : nat)                        (* REQUIRE_CONTAINS *)
| RqContainsOpt (k : nat)                     (* REQUIRE_CONTAINS_OPTIONAL *)
| RqNonEmpty (k : nat)                        (* REQUIRE(n > 0) *)
| RqFlagOrNonEmpty (b k : nat)                (* REQUIRE(flag || n > 0) *)
| RqOper (k : nat)                            (* REQUIRE(op != NULL) *)
| RqEither (k : nat) (t1 t2 : asttype)        (* instanceof t1 || instanceof t2 *)
| RqEitherOpt (k : nat) (t1 t2 : asttype)     (* the same, or NULL *)
| RqPairs (k : nat) (t1 t2 : asttype)         (* ast_map.c:102-106 *)
| RqOdd (k : nat)                             (* ast_pattern_path.c:75-76 *)
| RqAlternate (k : nat) (t1 t2 : asttype)     (* ast_pattern_path.c:77-82 *)
| RqChain (o k : nat).                        (* ast_comparison.c:56-57, and one more argument than operators *)

(** Parameters of the constructor cypher_ast_* of each type ([None]: the type
    is abstract, no constructor).  Every constructor stores every parameter in
    the structure field of the same name. *)
Definition ctor_kinds (t : asttype) : option (list pkind) :=
  match t with
  | T_STATEMENT => Some [KList; KNode]   (* ast_statement.c:43 options, body *)
  | T_STATEMENT_OPTION => None
  | T_CYPHER_OPTION => Some [KNode; KList]   (* ast_cypher_option.c:50 version, params *)
  | T_CYPHER_OPTION_PARAM => Some [KNode; KNode]   (* ast_cypher_option_param.c:44 name, value *)
  | T_EXPLAIN_OPTION => Some []   (* ast_explain_option.c:47  *)
  | T_PROFILE_OPTION => Some []   (* ast_profile_option.c:47  *)
  | T_SCHEMA_COMMAND => None
  | T_CREATE_NODE_PROPS_INDEX => Some [KNode; KList]   (* ast_create_node_props_index.c:49 label, prop_names *)
  | T_DROP_NODE_PROPS_INDEX => Some [KNode; KList]   (* ast_drop_node_props_index.c:49 label, prop_names *)
  | T_CREATE_NODE_PROP_CONSTRAINT => Some [KNode; KNode; KNode; KBool]   (* ast_create_node_prop_constraint.c:50 identifier, label, expression, unique *)
  | T_DROP_NODE_PROP_CONSTRAINT => Some [KNode; KNode; KNode; KBool]   (* ast_drop_node_prop_constraint.c:50 identifier, label, expression, unique *)
  | T_CREATE_REL_PROP_CONSTRAINT => Some [KNode; KNode; KNode; KBool]   (* ast_create_rel_prop_constraint.c:50 identifier, reltype, expression, unique *)
  | T_DROP_REL_PROP_CONSTRAINT => Some [KNode; KNode; KNode; KBool]   (* ast_drop_rel_prop_constraint.c:50 identifier, reltype, expression, unique *)
  | T_QUERY => Some [KList; KList]   (* ast_query.c:46 options, clauses *)
  | T_QUERY_OPTION => None
  | T_USING_PERIODIC_COMMIT => Some [KNode]   (* ast_using_periodic_commit.c:48 limit *)
  | T_QUERY_CLAUSE => None
  | T_LOAD_CSV => Some [KBool; KNode; KNode; KNode]   (* ast_load_csv.c:50 with_headers, url, identifier, field_terminator *)
  | T_START => Some [KList; KNode]   (* ast_start.c:49 points, predicate *)
  | T_START_POINT => None
  | T_NODE_INDEX_LOOKUP => Some [KNode; KNode; KNode; KNode]   (* ast_node_index_lookup.c:50 identifier, index_name, prop_name, lookup *)
  | T_NODE_INDEX_QUERY => Some [KNode; KNode; KNode]   (* ast_node_index_query.c:49 identifier, index_name, query *)
  | T_NODE_ID_LOOKUP => Some [KNode; KList]   (* ast_node_id_lookup.c:49 identifier, ids *)
  | T_ALL_NODES_SCAN => Some [KNode]   (* ast_all_nodes_scan.c:47 identifier *)
  | T_REL_INDEX_LOOKUP => Some [KNode; KNode; KNode; KNode]   (* ast_rel_index_lookup.c:50 identifier, index_name, prop_name, lookup *)
  | T_REL_INDEX_QUERY => Some [KNode; KNode; KNode]   (* ast_rel_index_query.c:49 identifier, index_name, query *)
  | T_REL_ID_LOOKUP => Some [KNode; KList]   (* ast_rel_id_lookup.c:49 identifier, ids *)
  | T_ALL_RELS_SCAN => Some [KNode]   (* ast_all_rels_scan.c:47 identifier *)
  | T_MATCH => Some [KBool; KNode; KList; KNode]   (* ast_match.c:51 optional, pattern, hints, predicate *)
  | T_MATCH_HINT => None
  | T_USING_INDEX => Some [KNode; KNode; KNode]   (* ast_using_index.c:50 identifier, label, prop_name *)
  | T_USING_JOIN => Some [KList]   (* ast_using_join.c:49 identifiers *)
  | T_USING_SCAN => Some [KNode; KNode]   (* ast_using_scan.c:49 identifier, label *)
  | T_MERGE => Some [KNode; KList]   (* ast_merge.c:49 path, actions *)
  | T_MERGE_ACTION => None
  | T_ON_MATCH => Some [KList]   (* ast_on_match.c:48 items *)
  | T_ON_CREATE => Some [KList]   (* ast_on_create.c:48 items *)
  | T_CREATE => Some [KBool; KNode]   (* ast_create.c:48 unique, pattern *)
  | T_SET => Some [KList]   (* ast_set.c:48 items *)
  | T_SET_ITEM => None
  | T_SET_PROPERTY => Some [KNode; KNode]   (* ast_set_property.c:48 property, expression *)
  | T_SET_ALL_PROPERTIES => Some [KNode; KNode]   (* ast_set_all_properties.c:48 identifier, expression *)
  | T_MERGE_PROPERTIES => Some [KNode; KNode]   (* ast_merge_properties.c:48 identifier, expression *)
  | T_SET_LABELS => Some [KNode; KList]   (* ast_set_labels.c:49 identifier, labels *)
  | T_DELETE => Some [KBool; KList]   (* ast_delete.c:49 detach, expressions *)
  | T_REMOVE => Some [KList]   (* ast_remove.c:48 items *)
  | T_REMOVE_ITEM => None
  | T_REMOVE_LABELS => Some [KNode; KList]   (* ast_remove_labels.c:49 identifier, labels *)
  | T_REMOVE_PROPERTY => Some [KNode]   (* ast_remove_property.c:47 property *)
  | T_FOREACH => Some [KNode; KNode; KList]   (* ast_foreach.c:50 identifier, expression, clauses *)
  | T_WITH => Some [KBool; KBool; KList; KNode; KNode; KNode; KNode]   (* ast_with.c:54 distinct, include_existing, projections, order_by, skip, limit, predicate *)
  | T_UNWIND => Some [KNode; KNode]   (* ast_unwind.c:49 expression, alias *)
  | T_CALL => Some [KNode; KList; KList; KNode]   (* ast_call.c:53 proc_name, args, projections, predicate *)
  | T_RETURN => Some [KBool; KBool; KList; KNode; KNode; KNode]   (* ast_return.c:53 distinct, include_existing, projections, order_by, skip, limit *)
  | T_PROJECTION => Some [KNode; KNode]   (* ast_projection.c:43 expression, alias *)
  | T_ORDER_BY => Some [KList]   (* ast_order_by.c:43 items *)
  | T_SORT_ITEM => Some [KNode; KBool]   (* ast_sort_item.c:43 expression, ascending *)
  | T_UNION => Some [KBool]   (* ast_union.c:47 all *)
  | T_EXPRESSION => None
  | T_UNARY_OPERATOR => Some [KOper; KNode]   (* ast_unary_operator.c:49 op, arg *)
  | T_BINARY_OPERATOR => Some [KOper; KNode; KNode]   (* ast_binary_operator.c:50 op, arg1, arg2 *)
  | T_COMPARISON => Some [KOpers; KList]   (* ast_comparison.c:51 ops, args *)
  | T_APPLY_OPERATOR => Some [KNode; KBool; KList]   (* ast_apply_operator.c:51 func_name, distinct, args *)
  | T_APPLY_ALL_OPERATOR => Some [KNode; KBool]   (* ast_apply_all_operator.c:49 func_name, distinct *)
  | T_PROPERTY_OPERATOR => Some [KNode; KNode]   (* ast_property_operator.c:49 expression, prop_name *)
  | T_SUBSCRIPT_OPERATOR => Some [KNode; KNode]   (* ast_subscript_operator.c:49 expression, subscript *)
  | T_SLICE_OPERATOR => Some [KNode; KNode; KNode]   (* ast_slice_operator.c:50 expression, start, end *)
  | T_LABELS_OPERATOR => Some [KNode; KList]   (* ast_labels_operator.c:50 expression, labels *)
  | T_LIST_COMPREHENSION => Some [KNode; KNode; KNode; KNode]   (* ast_list_comprehension.c:82 identifier, expression, predicate, eval *)
  | T_PATTERN_COMPREHENSION => Some [KNode; KNode; KNode; KNode]   (* ast_pattern_comprehension.c:50 identifier, pattern, predicate, eval *)
  | T_CASE => Some [KNode; KList; KNode]   (* ast_case.c:51 expression, alternatives, deflt *)
  | T_FILTER => Some [KNode; KNode; KNode]   (* ast_filter.c:64 identifier, expression, predicate *)
  | T_EXTRACT => Some [KNode; KNode; KNode]   (* ast_extract.c:64 identifier, expression, eval *)
  | T_REDUCE => Some [KNode; KNode; KNode; KNode; KNode]   (* ast_reduce.c:52 accumulator, init, identifier, expression, eval *)
  | T_ALL => Some [KNode; KNode; KNode]   (* ast_all.c:64 identifier, expression, predicate *)
  | T_ANY => Some [KNode; KNode; KNode]   (* ast_any.c:64 identifier, expression, predicate *)
  | T_SINGLE => Some [KNode; KNode; KNode]   (* ast_single.c:64 identifier, expression, predicate *)
  | T_NONE => Some [KNode; KNode; KNode]   (* ast_none.c:64 identifier, expression, predicate *)
  | T_COLLECTION => Some [KList]   (* ast_collection.c:48 elements *)
  | T_MAP => Some [KList]   (* ast_map.c:98 pairs *)
  | T_IDENTIFIER => Some [KStr]   (* ast_identifier.c:47 s *)
  | T_PARAMETER => Some [KStr]   (* ast_parameter.c:47 s *)
  | T_STRING => Some [KStr]   (* ast_string.c:47 s *)
  | T_INTEGER => Some [KStr]   (* ast_integer.c:47 s *)
  | T_FLOAT => Some [KStr]   (* ast_float.c:47 s *)
  | T_BOOLEAN => None
  | T_TRUE => Some []   (* ast_true.c:47  *)
  | T_FALSE => Some []   (* ast_false.c:47  *)
  | T_NULL => Some []   (* ast_null.c:47  *)
  | T_LABEL => Some [KStr]   (* ast_label.c:42 s *)
  | T_RELTYPE => Some [KStr]   (* ast_reltype.c:42 s *)
  | T_PROP_NAME => Some [KStr]   (* ast_prop_name.c:42 s *)
  | T_FUNCTION_NAME => Some [KStr]   (* ast_function_name.c:42 s *)
  | T_INDEX_NAME => Some [KStr]   (* ast_index_name.c:42 s *)
  | T_PROC_NAME => Some [KStr]   (* ast_proc_name.c:42 s *)
  | T_PATTERN => Some [KList]   (* ast_pattern.c:43 paths *)
  | T_NAMED_PATH => Some [KNode; KNode]   (* ast_named_path.c:55 identifier, path *)
  | T_SHORTEST_PATH => Some [KBool; KNode]   (* ast_shortest_path.c:55 single, path *)
  | T_PATTERN_PATH => Some [KList]   (* ast_pattern_path.c:71 elements *)
  | T_NODE_PATTERN => Some [KNode; KList; KNode]   (* ast_node_pattern.c:45 identifier, labels, properties *)
  | T_REL_PATTERN => Some [KDir; KNode; KList; KNode; KNode]   (* ast_rel_pattern.c:47 direction, identifier, reltypes, properties, varlength *)
  | T_RANGE => Some [KNode; KNode]   (* ast_range.c:44 start, end *)
  | T_COMMAND => Some [KNode; KList]   (* ast_command.c:44 name, args *)
  | T_COMMENT => None
  | T_LINE_COMMENT => Some [KStr]   (* ast_line_comment.c:47 s *)
  | T_BLOCK_COMMENT => Some [KStr]   (* ast_block_comment.c:47 s *)
  | T_ERROR => Some [KStr]   (* ast_error.c:42 s *)
  | T_MAP_PROJECTION => Some [KNode; KList]   (* ast_map_projection.c:50 expression, selectors *)
  | T_MAP_PROJECTION_SELECTOR => None
  | T_MAP_PROJECTION_LITERAL => Some [KNode; KNode]   (* ast_map_projection_literal.c:48 prop_name, expression *)
  | T_MAP_PROJECTION_PROPERTY => Some [KNode]   (* ast_map_projection_property.c:47 prop_name *)
  | T_MAP_PROJECTION_IDENTIFIER => Some [KNode]   (* ast_map_projection_identifier.c:47 identifier *)
  | T_MAP_PROJECTION_ALL_PROPERTIES => Some []   (* ast_map_projection_all_properties.c:46  *)
  end.

Definition ctor_reqs (t : asttype) : list req :=
  match t with
  | T_STATEMENT => [RqChildAll 0 T_STATEMENT_OPTION; RqEither 1 T_QUERY T_SCHEMA_COMMAND; RqContains 1]   (* ast_statement.c:43-75 *)
  | T_STATEMENT_OPTION => []
  | T_CYPHER_OPTION => [RqChildOpt 0 T_STRING; RqChildAll 1 T_CYPHER_OPTION_PARAM]   (* ast_cypher_option.c:50-82 *)
  | T_CYPHER_OPTION_PARAM => [RqChild 0 T_STRING; RqChild 1 T_STRING]   (* ast_cypher_option_param.c:44-65 *)
  | T_EXPLAIN_OPTION => []   (* ast_explain_option.c:47-60 *)
  | T_PROFILE_OPTION => []   (* ast_profile_option.c:47-60 *)
  | T_SCHEMA_COMMAND => []
  | T_CREATE_NODE_PROPS_INDEX => [RqChild 0 T_LABEL; RqNonEmpty 1; RqChildAll 1 T_PROP_NAME]   (* ast_create_node_props_index.c:49-80 *)
  | T_DROP_NODE_PROPS_INDEX => [RqChild 0 T_LABEL; RqNonEmpty 1; RqChildAll 1 T_PROP_NAME]   (* ast_drop_node_props_index.c:49-80 *)
  | T_CREATE_NODE_PROP_CONSTRAINT => [RqChild 0 T_IDENTIFIER; RqChild 1 T_LABEL; RqChild 2 T_EXPRESSION]   (* ast_create_node_prop_constraint.c:50-75 *)
  | T_DROP_NODE_PROP_CONSTRAINT => [RqChild 0 T_IDENTIFIER; RqChild 1 T_LABEL; RqChild 2 T_EXPRESSION]   (* ast_drop_node_prop_constraint.c:50-75 *)
  | T_CREATE_REL_PROP_CONSTRAINT => [RqChild 0 T_IDENTIFIER; RqChild 1 T_RELTYPE; RqChild 2 T_EXPRESSION]   (* ast_create_rel_prop_constraint.c:50-75 *)
  | T_DROP_REL_PROP_CONSTRAINT => [RqChild 0 T_IDENTIFIER; RqChild 1 T_RELTYPE; RqChild 2 T_EXPRESSION]   (* ast_drop_rel_prop_constraint.c:50-75 *)
  | T_QUERY => [RqChildAll 0 T_QUERY_OPTION; RqNonEmpty 1; RqChildAll 1 T_QUERY_CLAUSE]   (* ast_query.c:46-86 *)
  | T_QUERY_OPTION => []
  | T_USING_PERIODIC_COMMIT => [RqChildOpt 0 T_INTEGER]   (* ast_using_periodic_commit.c:48-67 *)
  | T_QUERY_CLAUSE => []
  | T_LOAD_CSV => [RqChild 1 T_EXPRESSION; RqChild 2 T_IDENTIFIER; RqChildOpt 3 T_STRING]   (* ast_load_csv.c:50-75 *)
  | T_START => [RqNonEmpty 0; RqChildAll 0 T_START_POINT; RqChildOpt 1 T_EXPRESSION]   (* ast_start.c:49-81 *)
  | T_START_POINT => []
  | T_NODE_INDEX_LOOKUP => [RqChild 0 T_IDENTIFIER; RqChild 1 T_INDEX_NAME; RqChild 2 T_PROP_NAME; RqEither 3 T_STRING T_PARAMETER; RqContains 3]   (* ast_node_index_lookup.c:50-78 *)
  | T_NODE_INDEX_QUERY => [RqChild 0 T_IDENTIFIER; RqChild 1 T_INDEX_NAME; RqEither 2 T_STRING T_PARAMETER; RqContains 2]   (* ast_node_index_query.c:49-74 *)
  | T_NODE_ID_LOOKUP => [RqChild 0 T_IDENTIFIER; RqNonEmpty 1; RqChildAll 1 T_INTEGER]   (* ast_node_id_lookup.c:49-79 *)
  | T_ALL_NODES_SCAN => [RqChild 0 T_IDENTIFIER]   (* ast_all_nodes_scan.c:47-65 *)
  | T_REL_INDEX_LOOKUP => [RqChild 0 T_IDENTIFIER; RqChild 1 T_INDEX_NAME; RqChild 2 T_PROP_NAME; RqEither 3 T_STRING T_PARAMETER; RqContains 3]   (* ast_rel_index_lookup.c:50-78 *)
  | T_REL_INDEX_QUERY => [RqChild 0 T_IDENTIFIER; RqChild 1 T_INDEX_NAME; RqEither 2 T_STRING T_PARAMETER; RqContains 2]   (* ast_rel_index_query.c:49-74 *)
  | T_REL_ID_LOOKUP => [RqChild 0 T_IDENTIFIER; RqNonEmpty 1; RqChildAll 1 T_INTEGER]   (* ast_rel_id_lookup.c:49-79 *)
  | T_ALL_RELS_SCAN => [RqChild 0 T_IDENTIFIER]   (* ast_all_rels_scan.c:47-65 *)
  | T_MATCH => [RqChild 1 T_PATTERN; RqChildAll 2 T_MATCH_HINT; RqChildOpt 3 T_EXPRESSION]   (* ast_match.c:51-86 *)
  | T_MATCH_HINT => []
  | T_USING_INDEX => [RqChild 0 T_IDENTIFIER; RqChild 1 T_LABEL; RqChild 2 T_PROP_NAME]   (* ast_using_index.c:50-73 *)
  | T_USING_JOIN => [RqNonEmpty 0; RqChildAll 0 T_IDENTIFIER]   (* ast_using_join.c:49-79 *)
  | T_USING_SCAN => [RqChild 0 T_IDENTIFIER; RqChild 1 T_LABEL]   (* ast_using_scan.c:49-69 *)
  | T_MERGE => [RqChild 0 T_PATTERN_PATH; RqChildAll 1 T_MERGE_ACTION]   (* ast_merge.c:49-79 *)
  | T_MERGE_ACTION => []
  | T_ON_MATCH => [RqNonEmpty 0; RqChildAll 0 T_SET_ITEM]   (* ast_on_match.c:48-76 *)
  | T_ON_CREATE => [RqNonEmpty 0; RqChildAll 0 T_SET_ITEM]   (* ast_on_create.c:48-76 *)
  | T_CREATE => [RqChild 1 T_PATTERN]   (* ast_create.c:48-67 *)
  | T_SET => [RqNonEmpty 0; RqChildAll 0 T_SET_ITEM]   (* ast_set.c:48-76 *)
  | T_SET_ITEM => []
  | T_SET_PROPERTY => [RqChild 0 T_PROPERTY_OPERATOR; RqChild 1 T_EXPRESSION]   (* ast_set_property.c:48-69 *)
  | T_SET_ALL_PROPERTIES => [RqChild 0 T_IDENTIFIER; RqChild 1 T_EXPRESSION]   (* ast_set_all_properties.c:48-70 *)
  | T_MERGE_PROPERTIES => [RqChild 0 T_IDENTIFIER; RqChild 1 T_EXPRESSION]   (* ast_merge_properties.c:48-69 *)
  | T_SET_LABELS => [RqChild 0 T_IDENTIFIER; RqNonEmpty 1; RqChildAll 1 T_LABEL]   (* ast_set_labels.c:49-80 *)
  | T_DELETE => [RqNonEmpty 1; RqChildAll 1 T_EXPRESSION]   (* ast_delete.c:49-80 *)
  | T_REMOVE => [RqNonEmpty 0; RqChildAll 0 T_REMOVE_ITEM]   (* ast_remove.c:48-76 *)
  | T_REMOVE_ITEM => []
  | T_REMOVE_LABELS => [RqChild 0 T_IDENTIFIER; RqNonEmpty 1; RqChildAll 1 T_LABEL]   (* ast_remove_labels.c:49-80 *)
  | T_REMOVE_PROPERTY => [RqChild 0 T_PROPERTY_OPERATOR]   (* ast_remove_property.c:47-66 *)
  | T_FOREACH => [RqChild 0 T_IDENTIFIER; RqChild 1 T_EXPRESSION; RqNonEmpty 2; RqChildAll 2 T_QUERY_CLAUSE]   (* ast_foreach.c:50-83 *)
  | T_WITH => [RqFlagOrNonEmpty 1 2; RqChildAll 2 T_PROJECTION; RqChildOpt 3 T_ORDER_BY; RqChildOpt 4 T_EXPRESSION; RqChildOpt 5 T_EXPRESSION]   (* ast_with.c:54-98 *)
  | T_UNWIND => [RqChild 0 T_EXPRESSION; RqChild 1 T_IDENTIFIER]   (* ast_unwind.c:49-69 *)
  | T_CALL => [RqChild 0 T_PROC_NAME; RqChildAll 1 T_EXPRESSION; RqChildAll 2 T_PROJECTION; RqChildOpt 3 T_EXPRESSION]   (* ast_call.c:53-99 *)
  | T_RETURN => [RqFlagOrNonEmpty 1 2; RqChildAll 2 T_PROJECTION; RqChildOpt 3 T_ORDER_BY; RqChildOpt 4 T_EXPRESSION; RqChildOpt 5 T_EXPRESSION]   (* ast_return.c:53-95 *)
  | T_PROJECTION => [RqChild 0 T_EXPRESSION; RqChildOpt 1 T_IDENTIFIER]   (* ast_projection.c:43-64 *)
  | T_ORDER_BY => [RqNonEmpty 0; RqChildAll 0 T_SORT_ITEM]   (* ast_order_by.c:43-71 *)
  | T_SORT_ITEM => [RqChild 0 T_EXPRESSION]   (* ast_sort_item.c:43-62 *)
  | T_UNION => []   (* ast_union.c:47-62 *)
  | T_EXPRESSION => []
  | T_UNARY_OPERATOR => [RqOper 0; RqChild 1 T_EXPRESSION]   (* ast_unary_operator.c:49-69 *)
  | T_BINARY_OPERATOR => [RqOper 0; RqChild 1 T_EXPRESSION; RqChild 2 T_EXPRESSION]   (* ast_binary_operator.c:50-73 *)
  | T_COMPARISON => [RqChain 0 1; RqChildAll 1 T_EXPRESSION]   (* ast_comparison.c:51-88 *)
  | T_APPLY_OPERATOR => [RqChild 0 T_FUNCTION_NAME; RqChildAll 2 T_EXPRESSION]   (* ast_apply_operator.c:51-84 *)
  | T_APPLY_ALL_OPERATOR => [RqChild 0 T_FUNCTION_NAME]   (* ast_apply_all_operator.c:49-77 *)
  | T_PROPERTY_OPERATOR => [RqChild 0 T_EXPRESSION; RqChild 1 T_PROP_NAME]   (* ast_property_operator.c:49-71 *)
  | T_SUBSCRIPT_OPERATOR => [RqChild 0 T_EXPRESSION; RqChild 1 T_EXPRESSION]   (* ast_subscript_operator.c:49-71 *)
  | T_SLICE_OPERATOR => [RqChild 0 T_EXPRESSION; RqChildOpt 1 T_EXPRESSION; RqChildOpt 2 T_EXPRESSION]   (* ast_slice_operator.c:50-75 *)
  | T_LABELS_OPERATOR => [RqChild 0 T_EXPRESSION; RqNonEmpty 1; RqChildAll 1 T_LABEL]   (* ast_labels_operator.c:50-81 *)
  | T_LIST_COMPREHENSION => [RqChild 0 T_IDENTIFIER; RqChild 1 T_EXPRESSION; RqChildOpt 2 T_EXPRESSION; RqChildOpt 3 T_EXPRESSION]   (* ast_list_comprehension.c:82-118 *)
  | T_PATTERN_COMPREHENSION => [RqChildOpt 0 T_IDENTIFIER; RqChild 1 T_PATTERN_PATH; RqChildOpt 2 T_EXPRESSION; RqChild 3 T_EXPRESSION]   (* ast_pattern_comprehension.c:50-81 *)
  | T_CASE => [RqChildOpt 0 T_EXPRESSION; RqChildAllHalf 1 T_EXPRESSION; RqChildOpt 2 T_EXPRESSION]   (* ast_case.c:51-86 *)
  | T_FILTER => [RqChild 0 T_IDENTIFIER; RqChild 1 T_EXPRESSION; RqChildOpt 2 T_EXPRESSION]   (* ast_filter.c:64-88 *)
  | T_EXTRACT => [RqChild 0 T_IDENTIFIER; RqChild 1 T_EXPRESSION; RqChildOpt 2 T_EXPRESSION]   (* ast_extract.c:64-88 *)
  | T_REDUCE => [RqChild 0 T_IDENTIFIER; RqChild 1 T_EXPRESSION; RqChild 2 T_IDENTIFIER; RqChild 3 T_EXPRESSION; RqChildOpt 4 T_EXPRESSION]   (* ast_reduce.c:52-80 *)
  | T_ALL => [RqChild 0 T_IDENTIFIER; RqChild 1 T_EXPRESSION; RqChildOpt 2 T_EXPRESSION]   (* ast_all.c:64-88 *)
  | T_ANY => [RqChild 0 T_IDENTIFIER; RqChild 1 T_EXPRESSION; RqChildOpt 2 T_EXPRESSION]   (* ast_any.c:64-88 *)
  | T_SINGLE => [RqChild 0 T_IDENTIFIER; RqChild 1 T_EXPRESSION; RqChildOpt 2 T_EXPRESSION]   (* ast_single.c:64-88 *)
  | T_NONE => [RqChild 0 T_IDENTIFIER; RqChild 1 T_EXPRESSION; RqChildOpt 2 T_EXPRESSION]   (* ast_none.c:64-87 *)
  | T_COLLECTION => [RqChildAll 0 T_EXPRESSION]   (* ast_collection.c:48-70 *)
  | T_MAP => [RqPairs 0 T_PROP_NAME T_EXPRESSION]   (* ast_map.c:98-114 *)
  | T_IDENTIFIER => []   (* ast_identifier.c:47-63 *)
  | T_PARAMETER => []   (* ast_parameter.c:47-63 *)
  | T_STRING => []   (* ast_string.c:47-63 *)
  | T_INTEGER => []   (* ast_integer.c:47-63 *)
  | T_FLOAT => []   (* ast_float.c:47-63 *)
  | T_BOOLEAN => []
  | T_TRUE => []   (* ast_true.c:47-60 *)
  | T_FALSE => []   (* ast_false.c:47-60 *)
  | T_NULL => []   (* ast_null.c:47-60 *)
  | T_LABEL => []   (* ast_label.c:42-58 *)
  | T_RELTYPE => []   (* ast_reltype.c:42-58 *)
  | T_PROP_NAME => []   (* ast_prop_name.c:42-58 *)
  | T_FUNCTION_NAME => []   (* ast_function_name.c:42-58 *)
  | T_INDEX_NAME => []   (* ast_index_name.c:42-58 *)
  | T_PROC_NAME => []   (* ast_proc_name.c:42-58 *)
  | T_PATTERN => [RqNonEmpty 0; RqChildAll 0 T_PATTERN_PATH]   (* ast_pattern.c:43-71 *)
  | T_NAMED_PATH => [RqChild 0 T_IDENTIFIER; RqChild 1 T_PATTERN_PATH]   (* ast_named_path.c:55-75 *)
  | T_SHORTEST_PATH => [RqChild 1 T_PATTERN_PATH]   (* ast_shortest_path.c:55-74 *)
  | T_PATTERN_PATH => [RqOdd 0; RqAlternate 0 T_NODE_PATTERN T_REL_PATTERN]   (* ast_pattern_path.c:71-104 *)
  | T_NODE_PATTERN => [RqChildOpt 0 T_IDENTIFIER; RqChildAll 1 T_LABEL; RqEitherOpt 2 T_MAP T_PARAMETER; RqContainsOpt 2]   (* ast_node_pattern.c:45-80 *)
  | T_REL_PATTERN => [RqChildOpt 1 T_IDENTIFIER; RqChildAll 2 T_RELTYPE; RqEitherOpt 3 T_MAP T_PARAMETER; RqContainsOpt 3; RqChildOpt 4 T_RANGE]   (* ast_rel_pattern.c:47-88 *)
  | T_RANGE => [RqChildOpt 0 T_INTEGER; RqChildOpt 1 T_INTEGER]   (* ast_range.c:44-64 *)
  | T_COMMAND => [RqChild 0 T_STRING; RqChildAll 1 T_STRING]   (* ast_command.c:44-74 *)
  | T_COMMENT => []
  | T_LINE_COMMENT => []   (* ast_line_comment.c:47-63 *)
  | T_BLOCK_COMMENT => []   (* ast_block_comment.c:47-63 *)
  | T_ERROR => []   (* ast_error.c:42-58 *)
  | T_MAP_PROJECTION => [RqChild 0 T_EXPRESSION]   (* ast_map_projection.c:50-73 *)
  | T_MAP_PROJECTION_SELECTOR => []
  | T_MAP_PROJECTION_LITERAL => [RqChild 0 T_PROP_NAME; RqChild 1 T_EXPRESSION]   (* ast_map_projection_literal.c:48-70 *)
  | T_MAP_PROJECTION_PROPERTY => [RqChild 0 T_PROP_NAME]   (* ast_map_projection_property.c:47-67 *)
  | T_MAP_PROJECTION_IDENTIFIER => [RqChild 0 T_IDENTIFIER]   (* ast_map_projection_identifier.c:47-67 *)
  | T_MAP_PROJECTION_ALL_PROPERTIES => []   (* ast_map_projection_all_properties.c:46-63 *)
  end.

(** Arguments that a clone function (virtual table entry [.clone]) passes to the
    constructor it calls; numbers are fields of the cloned node. *)
Inductive cparam : Set :=
| CpField (k : nat)       (* node->f, copied *)
| CpStr (k : nat)         (* node->p, strlen(node->p) *)
| CpChild (k : nat)       (* children[child_index(self, node->f)] *)
| CpOpt (k : nat)         (* (node->f == NULL) ? NULL : children[child_index(..)] *)
| CpOptInv (k : nat)      (* (node->f != NULL) ? NULL : children[child_index(..)] *)
| CpList (k : nat)        (* the array, element by element *)
| CpListHalf (k : nat).   (* ast_case.c:101-109, ast_map.c:124-133: an array of half the size *)

(** For each type with a constructor: the type whose constructor the clone
    function calls, and the arguments. *)
Definition clone_call (t : asttype) : option (asttype * list cparam) :=
  match t with
  | T_STATEMENT => Some (T_STATEMENT, [CpList 0; CpChild 1])   (* ast_statement.c:79-102 *)
  | T_STATEMENT_OPTION => None
  | T_CYPHER_OPTION => Some (T_CYPHER_OPTION, [CpOpt 0; CpList 1])   (* ast_cypher_option.c:86-111 *)
  | T_CYPHER_OPTION_PARAM => Some (T_CYPHER_OPTION_PARAM, [CpChild 0; CpChild 1])   (* ast_cypher_option_param.c:69-80 *)
  | T_EXPLAIN_OPTION => Some (T_EXPLAIN_OPTION, [])   (* ast_explain_option.c:64-68 *)
  | T_PROFILE_OPTION => Some (T_PROFILE_OPTION, [])   (* ast_profile_option.c:64-68 *)
  | T_SCHEMA_COMMAND => None
  | T_CREATE_NODE_PROPS_INDEX => Some (T_CREATE_NODE_PROPS_INDEX, [CpChild 0; CpList 1])   (* ast_create_node_props_index.c:84-109 *)
  | T_DROP_NODE_PROPS_INDEX => Some (T_DROP_NODE_PROPS_INDEX, [CpChild 0; CpList 1])   (* ast_drop_node_props_index.c:84-108 *)
  | T_CREATE_NODE_PROP_CONSTRAINT => Some (T_CREATE_NODE_PROP_CONSTRAINT, [CpChild 0; CpChild 1; CpChild 2; CpField 3])   (* ast_create_node_prop_constraint.c:79-90 *)
  | T_DROP_NODE_PROP_CONSTRAINT => Some (T_DROP_NODE_PROP_CONSTRAINT, [CpChild 0; CpChild 1; CpChild 2; CpField 3])   (* ast_drop_node_prop_constraint.c:79-90 *)
  | T_CREATE_REL_PROP_CONSTRAINT => Some (T_CREATE_REL_PROP_CONSTRAINT, [CpChild 0; CpChild 1; CpChild 2; CpField 3])   (* ast_create_rel_prop_constraint.c:79-90 *)
  | T_DROP_REL_PROP_CONSTRAINT => Some (T_DROP_NODE_PROP_CONSTRAINT, [CpChild 0; CpChild 1; CpChild 2; CpField 3])   (* ast_drop_rel_prop_constraint.c:79-90 *)
  | T_QUERY => Some (T_QUERY, [CpList 0; CpList 1])   (* ast_query.c:90-123 *)
  | T_QUERY_OPTION => None
  | T_USING_PERIODIC_COMMIT => Some (T_USING_PERIODIC_COMMIT, [CpOpt 0])   (* ast_using_periodic_commit.c:71-82 *)
  | T_QUERY_CLAUSE => None
  | T_LOAD_CSV => Some (T_LOAD_CSV, [CpField 0; CpChild 1; CpChild 2; CpOpt 3])   (* ast_load_csv.c:79-91 *)
  | T_START => Some (T_START, [CpList 0; CpOptInv 1])   (* ast_start.c:85-109 *)
  | T_START_POINT => None
  | T_NODE_INDEX_LOOKUP => Some (T_NODE_INDEX_LOOKUP, [CpChild 0; CpChild 1; CpChild 2; CpChild 3])   (* ast_node_index_lookup.c:82-95 *)
  | T_NODE_INDEX_QUERY => Some (T_NODE_INDEX_QUERY, [CpChild 0; CpChild 1; CpChild 2])   (* ast_node_index_query.c:78-90 *)
  | T_NODE_ID_LOOKUP => Some (T_NODE_ID_LOOKUP, [CpChild 0; CpList 1])   (* ast_node_id_lookup.c:83-106 *)
  | T_ALL_NODES_SCAN => Some (T_ALL_NODES_SCAN, [CpChild 0])   (* ast_all_nodes_scan.c:69-79 *)
  | T_REL_INDEX_LOOKUP => Some (T_REL_INDEX_LOOKUP, [CpChild 0; CpChild 1; CpChild 2; CpChild 3])   (* ast_rel_index_lookup.c:82-95 *)
  | T_REL_INDEX_QUERY => Some (T_REL_INDEX_QUERY, [CpChild 0; CpChild 1; CpChild 2])   (* ast_rel_index_query.c:78-90 *)
  | T_REL_ID_LOOKUP => Some (T_REL_ID_LOOKUP, [CpChild 0; CpList 1])   (* ast_rel_id_lookup.c:83-106 *)
  | T_ALL_RELS_SCAN => Some (T_ALL_RELS_SCAN, [CpChild 0])   (* ast_all_rels_scan.c:69-79 *)
  | T_MATCH => Some (T_MATCH, [CpField 0; CpChild 1; CpList 2; CpOpt 3])   (* ast_match.c:90-116 *)
  | T_MATCH_HINT => None
  | T_USING_INDEX => Some (T_USING_INDEX, [CpChild 0; CpChild 1; CpChild 2])   (* ast_using_index.c:77-89 *)
  | T_USING_JOIN => Some (T_USING_JOIN, [CpList 0])   (* ast_using_join.c:83-105 *)
  | T_USING_SCAN => Some (T_USING_SCAN, [CpChild 0; CpChild 1])   (* ast_using_scan.c:73-84 *)
  | T_MERGE => Some (T_MERGE, [CpChild 0; CpList 1])   (* ast_merge.c:83-106 *)
  | T_MERGE_ACTION => None
  | T_ON_MATCH => Some (T_ON_MATCH, [CpList 0])   (* ast_on_match.c:80-102 *)
  | T_ON_CREATE => Some (T_ON_CREATE, [CpList 0])   (* ast_on_create.c:80-102 *)
  | T_CREATE => Some (T_CREATE, [CpField 0; CpChild 1])   (* ast_create.c:71-80 *)
  | T_SET => Some (T_SET, [CpList 0])   (* ast_set.c:80-101 *)
  | T_SET_ITEM => None
  | T_SET_PROPERTY => Some (T_SET_PROPERTY, [CpChild 0; CpChild 1])   (* ast_set_property.c:73-84 *)
  | T_SET_ALL_PROPERTIES => Some (T_SET_ALL_PROPERTIES, [CpChild 0; CpChild 1])   (* ast_set_all_properties.c:74-85 *)
  | T_MERGE_PROPERTIES => Some (T_MERGE_PROPERTIES, [CpChild 0; CpChild 1])   (* ast_merge_properties.c:73-84 *)
  | T_SET_LABELS => Some (T_SET_LABELS, [CpChild 0; CpList 1])   (* ast_set_labels.c:84-107 *)
  | T_DELETE => Some (T_DELETE, [CpField 0; CpList 1])   (* ast_delete.c:84-107 *)
  | T_REMOVE => Some (T_REMOVE, [CpList 0])   (* ast_remove.c:80-101 *)
  | T_REMOVE_ITEM => None
  | T_REMOVE_LABELS => Some (T_REMOVE_LABELS, [CpChild 0; CpList 1])   (* ast_remove_labels.c:84-108 *)
  | T_REMOVE_PROPERTY => Some (T_REMOVE_PROPERTY, [CpChild 0])   (* ast_remove_property.c:70-80 *)
  | T_FOREACH => Some (T_FOREACH, [CpChild 0; CpChild 1; CpList 2])   (* ast_foreach.c:87-112 *)
  | T_WITH => Some (T_WITH, [CpField 0; CpField 1; CpList 2; CpOpt 3; CpOptInv 4; CpOptInv 5; CpOpt 6])   (* ast_with.c:102-134 *)
  | T_UNWIND => Some (T_UNWIND, [CpChild 0; CpChild 1])   (* ast_unwind.c:73-83 *)
  | T_CALL => Some (T_CALL, [CpChild 0; CpList 1; CpList 2; CpOpt 3])   (* ast_call.c:111-148 *)
  | T_RETURN => Some (T_RETURN, [CpField 0; CpField 1; CpList 2; CpOpt 3; CpOptInv 4; CpOptInv 5])   (* ast_return.c:99-129 *)
  | T_PROJECTION => Some (T_PROJECTION, [CpChild 0; CpOpt 1])   (* ast_projection.c:68-79 *)
  | T_ORDER_BY => Some (T_ORDER_BY, [CpList 0])   (* ast_order_by.c:75-97 *)
  | T_SORT_ITEM => Some (T_SORT_ITEM, [CpChild 0; CpField 1])   (* ast_sort_item.c:66-75 *)
  | T_UNION => Some (T_UNION, [CpField 0])   (* ast_union.c:66-73 *)
  | T_EXPRESSION => None
  | T_UNARY_OPERATOR => Some (T_UNARY_OPERATOR, [CpField 0; CpChild 1])   (* ast_unary_operator.c:73-83 *)
  | T_BINARY_OPERATOR => Some (T_BINARY_OPERATOR, [CpField 0; CpChild 1; CpChild 2])   (* ast_binary_operator.c:77-88 *)
  | T_COMPARISON => Some (T_COMPARISON, [CpField 0; CpList 1])   (* ast_comparison.c:100-122 *)
  | T_APPLY_OPERATOR => Some (T_APPLY_OPERATOR, [CpChild 0; CpField 1; CpList 2])   (* ast_apply_operator.c:88-112 *)
  | T_APPLY_ALL_OPERATOR => Some (T_APPLY_ALL_OPERATOR, [CpChild 0; CpField 1])   (* ast_apply_all_operator.c:81-91 *)
  | T_PROPERTY_OPERATOR => Some (T_PROPERTY_OPERATOR, [CpChild 0; CpChild 1])   (* ast_property_operator.c:75-86 *)
  | T_SUBSCRIPT_OPERATOR => Some (T_SUBSCRIPT_OPERATOR, [CpChild 0; CpChild 1])   (* ast_subscript_operator.c:75-86 *)
  | T_SLICE_OPERATOR => Some (T_SLICE_OPERATOR, [CpChild 0; CpOpt 1; CpOpt 2])   (* ast_slice_operator.c:79-93 *)
  | T_LABELS_OPERATOR => Some (T_LABELS_OPERATOR, [CpChild 0; CpList 1])   (* ast_labels_operator.c:85-109 *)
  | T_LIST_COMPREHENSION => Some (T_LIST_COMPREHENSION, [CpChild 0; CpChild 1; CpOpt 2; CpOpt 3])   (* ast_list_comprehension.c:122-139 *)
  | T_PATTERN_COMPREHENSION => Some (T_PATTERN_COMPREHENSION, [CpOpt 0; CpChild 1; CpOptInv 2; CpChild 3])   (* ast_pattern_comprehension.c:85-100 *)
  | T_CASE => Some (T_CASE, [CpOpt 0; CpListHalf 1; CpOpt 2])   (* ast_case.c:90-117 *)
  | T_FILTER => Some (T_FILTER, [CpChild 0; CpChild 1; CpOpt 2])   (* ast_filter.c:92-107 *)
  | T_EXTRACT => Some (T_EXTRACT, [CpChild 0; CpChild 1; CpOpt 2])   (* ast_extract.c:92-107 *)
  | T_REDUCE => Some (T_REDUCE, [CpChild 0; CpChild 1; CpChild 2; CpChild 3; CpOpt 4])   (* ast_reduce.c:84-98 *)
  | T_ALL => Some (T_ALL, [CpChild 0; CpChild 1; CpOpt 2])   (* ast_all.c:92-107 *)
  | T_ANY => Some (T_ANY, [CpChild 0; CpChild 1; CpOpt 2])   (* ast_any.c:92-107 *)
  | T_SINGLE => Some (T_SINGLE, [CpChild 0; CpChild 1; CpOpt 2])   (* ast_single.c:92-107 *)
  | T_NONE => Some (T_NONE, [CpChild 0; CpChild 1; CpOptInv 2])   (* ast_none.c:91-106 *)
  | T_COLLECTION => Some (T_COLLECTION, [CpList 0])   (* ast_collection.c:74-96 *)
  | T_MAP => Some (T_MAP, [CpListHalf 0])   (* ast_map.c:118-140 *)
  | T_IDENTIFIER => Some (T_IDENTIFIER, [CpStr 0])   (* ast_identifier.c:67-72 *)
  | T_PARAMETER => Some (T_PARAMETER, [CpStr 0])   (* ast_parameter.c:67-72 *)
  | T_STRING => Some (T_STRING, [CpStr 0])   (* ast_string.c:67-72 *)
  | T_INTEGER => Some (T_INTEGER, [CpStr 0])   (* ast_integer.c:67-72 *)
  | T_FLOAT => Some (T_FLOAT, [CpStr 0])   (* ast_float.c:67-72 *)
  | T_BOOLEAN => None
  | T_TRUE => Some (T_TRUE, [])   (* ast_true.c:64-68 *)
  | T_FALSE => Some (T_FALSE, [])   (* ast_false.c:64-68 *)
  | T_NULL => Some (T_NULL, [])   (* ast_null.c:64-68 *)
  | T_LABEL => Some (T_LABEL, [CpStr 0])   (* ast_label.c:62-67 *)
  | T_RELTYPE => Some (T_RELTYPE, [CpStr 0])   (* ast_reltype.c:62-67 *)
  | T_PROP_NAME => Some (T_PROP_NAME, [CpStr 0])   (* ast_prop_name.c:62-67 *)
  | T_FUNCTION_NAME => Some (T_FUNCTION_NAME, [CpStr 0])   (* ast_function_name.c:62-68 *)
  | T_INDEX_NAME => Some (T_INDEX_NAME, [CpStr 0])   (* ast_index_name.c:62-67 *)
  | T_PROC_NAME => Some (T_PROC_NAME, [CpStr 0])   (* ast_proc_name.c:62-67 *)
  | T_PATTERN => Some (T_PATTERN, [CpList 0])   (* ast_pattern.c:75-96 *)
  | T_NAMED_PATH => Some (T_NAMED_PATH, [CpChild 0; CpChild 1])   (* ast_named_path.c:79-92 *)
  | T_SHORTEST_PATH => Some (T_SHORTEST_PATH, [CpField 0; CpChild 1])   (* ast_shortest_path.c:78-90 *)
  | T_PATTERN_PATH => Some (T_PATTERN_PATH, [CpList 0])   (* ast_pattern_path.c:108-133 *)
  | T_NODE_PATTERN => Some (T_NODE_PATTERN, [CpOpt 0; CpList 1; CpOpt 2])   (* ast_node_pattern.c:84-111 *)
  | T_REL_PATTERN => Some (T_REL_PATTERN, [CpField 0; CpOpt 1; CpList 2; CpOpt 3; CpOpt 4])   (* ast_rel_pattern.c:92-121 *)
  | T_RANGE => Some (T_RANGE, [CpOpt 0; CpOpt 1])   (* ast_range.c:68-79 *)
  | T_COMMAND => Some (T_COMMAND, [CpChild 0; CpList 1])   (* ast_command.c:78-100 *)
  | T_COMMENT => None
  | T_LINE_COMMENT => Some (T_LINE_COMMENT, [CpStr 0])   (* ast_line_comment.c:67-72 *)
  | T_BLOCK_COMMENT => Some (T_BLOCK_COMMENT, [CpStr 0])   (* ast_block_comment.c:67-72 *)
  | T_ERROR => Some (T_ERROR, [CpStr 0])   (* ast_error.c:62-67 *)
  | T_MAP_PROJECTION => Some (T_MAP_PROJECTION, [CpChild 0; CpList 1])   (* ast_map_projection.c:77-102 *)
  | T_MAP_PROJECTION_SELECTOR => None
  | T_MAP_PROJECTION_LITERAL => Some (T_MAP_PROJECTION_LITERAL, [CpChild 0; CpChild 1])   (* ast_map_projection_literal.c:74-85 *)
  | T_MAP_PROJECTION_PROPERTY => Some (T_MAP_PROJECTION_PROPERTY, [CpChild 0])   (* ast_map_projection_property.c:71-81 *)
  | T_MAP_PROJECTION_IDENTIFIER => Some (T_MAP_PROJECTION_IDENTIFIER, [CpChild 0])   (* ast_map_projection_identifier.c:71-81 *)
  | T_MAP_PROJECTION_ALL_PROPERTIES => Some (T_MAP_PROJECTION_ALL_PROPERTIES, [])   (* ast_map_projection_all_properties.c:67-72 *)
  end.
