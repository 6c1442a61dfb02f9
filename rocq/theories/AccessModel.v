(** * The accessors of AST nodes (lib/src/ast_*.c)

    What the constructors store in the structures of the nodes, and what the
    accessor functions read from them.  The tables are generated from the
    sources.  AstModel describes a node by the parameters of its constructor;
    here its structure is rebuilt from the assignments that the constructor
    makes.  Simplifications: unsigned int does not overflow; array parameters
    have as many elements as the count passed with them says; a pointer that an
    accessor follows is looked for among the children of the node. *)
From Coq Require Import List Bool Arith Ascii String.
From Verif Require Import Peg QuickModel ErrModel CypherSyntax AstTypes AstModel.
Import ListNotations.
Local Open Scope string_scope.

(** ** Structures *)

(** Types of structure members *)
Inductive mkind : Set := MKNode | MKNodes | MKNum | MKBool | MKDir | MKOper | MKOpers | MKStr.

(** Contents of a member.  An array is the part of it that has been written. *)
Inductive mval : Set :=
| MNode (o : option nat)
| MNodes (l : list nat)
| MNum (n : nat)
| MBool (b : bool)
| MDir (d : dir)
| MOper (o : option oper)
| MOpers (l : list oper)
| MStr (s : bytes).

(** calloc: what a member contains before it is assigned *)
Definition zero (k : mkind) : mval :=
  match k with
  | MKNode => MNode None | MKNodes => MNodes [] | MKNum => MNum 0 | MKBool => MBool false
  | MKDir => MDir INBOUND | MKOper => MOper None | MKOpers => MOpers [] | MKStr => MStr []
  end.

(** The number passed with the array parameter [k], and the same for an array
    of pairs *)
Inductive nsrc : Set := NLen (k : nat) | NHalf (k : nat).
(** [l_mul] * number + [l_add] elements *)
Record lenexp : Set := mklen { l_num : nsrc; l_mul : nat; l_add : nat }.

(** Right-hand sides of the assignments of a constructor *)
Inductive msrc : Set :=
| SVal (k : nat)                           (* node->m = parameter *)
| SNum (q : nsrc)                          (* node->m = number *)
| SDup (k : nat) (n : lenexp)              (* node->m = mdup(parameter, n) *)
| SCopy (k : nat) (n room : lenexp)        (* memcpy(node->m, parameter, n), [room] allocated *)
| SStr (k : nat).                          (* memcpy(node->p, s, n); node->p[n] = 0, n+1 allocated *)

(** One assignment; with a guard it is made only if the number passed with the
    array parameter [k] is not 0 *)
Record assign : Set := mkassign { a_mem : string; a_src : msrc; a_guard : option nat }.
Definition set (m : string) (s : msrc) : assign := mkassign m s None.
Definition set_if (k : nat) (m : string) (s : msrc) : assign := mkassign m s (Some k).

(** The members of the structure of each type *)
Definition struct_decl (t : asttype) : list (string * mkind) :=
  match t with
  | T_STATEMENT => [("body", MKNode); ("noptions", MKNum); ("options", MKNodes)]   (* ast_statement.c:22 struct statement *)
  | T_CYPHER_OPTION => [("version", MKNode); ("nparams", MKNum); ("params", MKNodes)]   (* ast_cypher_option.c:24 struct cypher_option *)
  | T_CYPHER_OPTION_PARAM => [("name", MKNode); ("value", MKNode)]   (* ast_cypher_option_param.c:24 struct cypher_option_param *)
  | T_EXPLAIN_OPTION => []   (* ast_explain_option.c:24 struct explain_option *)
  | T_PROFILE_OPTION => []   (* ast_profile_option.c:24 struct profile_option *)
  | T_CREATE_NODE_PROPS_INDEX => [("label", MKNode); ("nprops", MKNum); ("prop_names", MKNodes)]   (* ast_create_node_props_index.c:23 struct create_index *)
  | T_DROP_NODE_PROPS_INDEX => [("label", MKNode); ("nprops", MKNum); ("prop_names", MKNodes)]   (* ast_drop_node_props_index.c:23 struct drop_index *)
  | T_CREATE_NODE_PROP_CONSTRAINT => [("identifier", MKNode); ("label", MKNode); ("expression", MKNode); ("unique", MKBool)]   (* ast_create_node_prop_constraint.c:23 struct constraint *)
  | T_DROP_NODE_PROP_CONSTRAINT => [("identifier", MKNode); ("label", MKNode); ("expression", MKNode); ("unique", MKBool)]   (* ast_drop_node_prop_constraint.c:23 struct constraint *)
  | T_CREATE_REL_PROP_CONSTRAINT => [("identifier", MKNode); ("reltype", MKNode); ("expression", MKNode); ("unique", MKBool)]   (* ast_create_rel_prop_constraint.c:23 struct constraint *)
  | T_DROP_REL_PROP_CONSTRAINT => [("identifier", MKNode); ("reltype", MKNode); ("expression", MKNode); ("unique", MKBool)]   (* ast_drop_rel_prop_constraint.c:23 struct constraint *)
  | T_QUERY => [("noptions", MKNum); ("options", MKNodes); ("nclauses", MKNum); ("clauses", MKNodes)]   (* ast_query.c:23 struct query *)
  | T_USING_PERIODIC_COMMIT => [("limit", MKNode)]   (* ast_using_periodic_commit.c:24 struct using_periodic_commit *)
  | T_LOAD_CSV => [("with_headers", MKBool); ("url", MKNode); ("identifier", MKNode); ("field_terminator", MKNode)]   (* ast_load_csv.c:23 struct loadcsv *)
  | T_START => [("predicate", MKNode); ("npoints", MKNum); ("points", MKNodes)]   (* ast_start.c:23 struct start *)
  | T_NODE_INDEX_LOOKUP => [("identifier", MKNode); ("index_name", MKNode); ("prop_name", MKNode); ("lookup", MKNode)]   (* ast_node_index_lookup.c:23 struct node_index_lookup *)
  | T_NODE_INDEX_QUERY => [("identifier", MKNode); ("index_name", MKNode); ("query", MKNode)]   (* ast_node_index_query.c:23 struct node_index_query *)
  | T_NODE_ID_LOOKUP => [("identifier", MKNode); ("nids", MKNum); ("ids", MKNodes)]   (* ast_node_id_lookup.c:23 struct node_id_lookup *)
  | T_ALL_NODES_SCAN => [("identifier", MKNode)]   (* ast_all_nodes_scan.c:23 struct all_nodes_scan *)
  | T_REL_INDEX_LOOKUP => [("identifier", MKNode); ("index_name", MKNode); ("prop_name", MKNode); ("lookup", MKNode)]   (* ast_rel_index_lookup.c:23 struct rel_index_lookup *)
  | T_REL_INDEX_QUERY => [("identifier", MKNode); ("index_name", MKNode); ("query", MKNode)]   (* ast_rel_index_query.c:23 struct rel_index_query *)
  | T_REL_ID_LOOKUP => [("identifier", MKNode); ("nids", MKNum); ("ids", MKNodes)]   (* ast_rel_id_lookup.c:23 struct rel_id_lookup *)
  | T_ALL_RELS_SCAN => [("identifier", MKNode)]   (* ast_all_rels_scan.c:23 struct all_rels_scan *)
  | T_MATCH => [("optional", MKBool); ("pattern", MKNode); ("predicate", MKNode); ("nhints", MKNum); ("hints", MKNodes)]   (* ast_match.c:23 struct match *)
  | T_USING_INDEX => [("identifier", MKNode); ("label", MKNode); ("prop_name", MKNode)]   (* ast_using_index.c:24 struct using_index *)
  | T_USING_JOIN => [("nidentifiers", MKNum); ("identifiers", MKNodes)]   (* ast_using_join.c:24 struct using_join *)
  | T_USING_SCAN => [("identifier", MKNode); ("label", MKNode)]   (* ast_using_scan.c:24 struct using_scan *)
  | T_MERGE => [("path", MKNode); ("nactions", MKNum); ("actions", MKNodes)]   (* ast_merge.c:23 struct merge *)
  | T_ON_MATCH => [("nitems", MKNum); ("items", MKNodes)]   (* ast_on_match.c:23 struct on_match *)
  | T_ON_CREATE => [("nitems", MKNum); ("items", MKNodes)]   (* ast_on_create.c:23 struct on_create *)
  | T_CREATE => [("unique", MKBool); ("pattern", MKNode)]   (* ast_create.c:23 struct create *)
  | T_SET => [("nitems", MKNum); ("items", MKNodes)]   (* ast_set.c:23 struct set *)
  | T_SET_PROPERTY => [("property", MKNode); ("expression", MKNode)]   (* ast_set_property.c:23 struct set_property *)
  | T_SET_ALL_PROPERTIES => [("identifier", MKNode); ("expression", MKNode)]   (* ast_set_all_properties.c:23 struct set_all_properties *)
  | T_MERGE_PROPERTIES => [("identifier", MKNode); ("expression", MKNode)]   (* ast_merge_properties.c:23 struct merge_properties *)
  | T_SET_LABELS => [("identifier", MKNode); ("nlabels", MKNum); ("labels", MKNodes)]   (* ast_set_labels.c:23 struct set_labels *)
  | T_DELETE => [("detach", MKBool); ("nexpressions", MKNum); ("expressions", MKNodes)]   (* ast_delete.c:23 struct delete_clause *)
  | T_REMOVE => [("nitems", MKNum); ("items", MKNodes)]   (* ast_remove.c:23 struct remove *)
  | T_REMOVE_LABELS => [("identifier", MKNode); ("nlabels", MKNum); ("labels", MKNodes)]   (* ast_remove_labels.c:23 struct remove_labels *)
  | T_REMOVE_PROPERTY => [("property", MKNode)]   (* ast_remove_property.c:23 struct remove_property *)
  | T_FOREACH => [("identifier", MKNode); ("expression", MKNode); ("nclauses", MKNum); ("clauses", MKNodes)]   (* ast_foreach.c:23 struct foreach_clause *)
  | T_WITH => [("distinct", MKBool); ("include_existing", MKBool); ("order_by", MKNode); ("skip", MKNode); ("limit", MKNode); ("predicate", MKNode); ("nprojections", MKNum); ("projections", MKNodes)]   (* ast_with.c:23 struct with_clause *)
  | T_UNWIND => [("expression", MKNode); ("alias", MKNode)]   (* ast_unwind.c:24 struct unwind *)
  | T_CALL => [("proc_name", MKNode); ("args", MKNodes); ("nargs", MKNum); ("predicate", MKNode); ("nprojections", MKNum); ("projections", MKNodes)]   (* ast_call.c:23 struct call_clause *)
  | T_RETURN => [("distinct", MKBool); ("include_existing", MKBool); ("order_by", MKNode); ("skip", MKNode); ("limit", MKNode); ("nprojections", MKNum); ("projections", MKNodes)]   (* ast_return.c:23 struct return_clause *)
  | T_PROJECTION => [("expression", MKNode); ("alias", MKNode)]   (* ast_projection.c:23 struct projection *)
  | T_ORDER_BY => [("nitems", MKNum); ("items", MKNodes)]   (* ast_order_by.c:23 struct order_by *)
  | T_SORT_ITEM => [("expression", MKNode); ("ascending", MKBool)]   (* ast_sort_item.c:23 struct sort_item *)
  | T_UNION => [("all", MKBool)]   (* ast_union.c:23 struct union_clause *)
  | T_UNARY_OPERATOR => [("op", MKOper); ("arg", MKNode)]   (* ast_unary_operator.c:24 struct unary_operator *)
  | T_BINARY_OPERATOR => [("op", MKOper); ("arg1", MKNode); ("arg2", MKNode)]   (* ast_binary_operator.c:24 struct binary_operator *)
  | T_COMPARISON => [("length", MKNum); ("ops", MKOpers); ("args", MKNodes)]   (* ast_comparison.c:24 struct comparison *)
  | T_APPLY_OPERATOR => [("distinct", MKBool); ("func_name", MKNode); ("nargs", MKNum); ("args", MKNodes)]   (* ast_apply_operator.c:24 struct apply_operator *)
  | T_APPLY_ALL_OPERATOR => [("distinct", MKBool); ("func_name", MKNode)]   (* ast_apply_all_operator.c:24 struct apply_all_operator *)
  | T_PROPERTY_OPERATOR => [("expression", MKNode); ("prop_name", MKNode)]   (* ast_property_operator.c:24 struct property_operator *)
  | T_SUBSCRIPT_OPERATOR => [("expression", MKNode); ("subscript", MKNode)]   (* ast_subscript_operator.c:24 struct subscript_operator *)
  | T_SLICE_OPERATOR => [("expression", MKNode); ("start", MKNode); ("end", MKNode)]   (* ast_slice_operator.c:24 struct slice_operator *)
  | T_LABELS_OPERATOR => [("expression", MKNode); ("nlabels", MKNum); ("labels", MKNodes)]   (* ast_labels_operator.c:24 struct labels_operator *)
  | T_LIST_COMPREHENSION => [("identifier", MKNode); ("expression", MKNode); ("predicate", MKNode); ("eval", MKNode)]   (* ast_list_comprehension.c:41 struct list_comprehension *)
  | T_PATTERN_COMPREHENSION => [("identifier", MKNode); ("pattern", MKNode); ("predicate", MKNode); ("eval", MKNode)]   (* ast_pattern_comprehension.c:23 struct pattern_comprehension *)
  | T_CASE => [("expression", MKNode); ("deflt", MKNode); ("nalternatives", MKNum); ("alternatives", MKNodes)]   (* ast_case.c:24 struct case_expression *)
  | T_FILTER => [("identifier", MKNode); ("expression", MKNode); ("predicate", MKNode)]   (* ast_filter.c:24 struct filter *)
  | T_EXTRACT => [("identifier", MKNode); ("expression", MKNode); ("eval", MKNode)]   (* ast_extract.c:24 struct extract *)
  | T_REDUCE => [("accumulator", MKNode); ("init", MKNode); ("identifier", MKNode); ("expression", MKNode); ("eval", MKNode)]   (* ast_reduce.c:24 struct reduce *)
  | T_ALL => [("identifier", MKNode); ("expression", MKNode); ("predicate", MKNode)]   (* ast_all.c:24 struct all *)
  | T_ANY => [("identifier", MKNode); ("expression", MKNode); ("predicate", MKNode)]   (* ast_any.c:24 struct any *)
  | T_SINGLE => [("identifier", MKNode); ("expression", MKNode); ("predicate", MKNode)]   (* ast_single.c:24 struct single *)
  | T_NONE => [("identifier", MKNode); ("expression", MKNode); ("predicate", MKNode)]   (* ast_none.c:24 struct none *)
  | T_COLLECTION => [("nelements", MKNum); ("elements", MKNodes)]   (* ast_collection.c:23 struct collection *)
  | T_MAP => [("nentries", MKNum); ("pairs", MKNodes)]   (* ast_map.c:23 struct map *)
  | T_IDENTIFIER => [("p", MKStr)]   (* ast_identifier.c:23 struct identifier *)
  | T_PARAMETER => [("p", MKStr)]   (* ast_parameter.c:23 struct parameter *)
  | T_STRING => [("p", MKStr)]   (* ast_string.c:23 struct string *)
  | T_INTEGER => [("p", MKStr)]   (* ast_integer.c:23 struct integer *)
  | T_FLOAT => [("p", MKStr)]   (* ast_float.c:23 struct flt *)
  | T_TRUE => []   (* ast_true.c:24 struct true_literal *)
  | T_FALSE => []   (* ast_false.c:24 struct false_literal *)
  | T_NULL => []   (* ast_null.c:24 struct null_literal *)
  | T_LABEL => [("p", MKStr)]   (* ast_label.c:23 struct label *)
  | T_RELTYPE => [("p", MKStr)]   (* ast_reltype.c:23 struct reltype *)
  | T_PROP_NAME => [("p", MKStr)]   (* ast_prop_name.c:23 struct prop_name *)
  | T_FUNCTION_NAME => [("p", MKStr)]   (* ast_function_name.c:23 struct function_name *)
  | T_INDEX_NAME => [("p", MKStr)]   (* ast_index_name.c:23 struct index_name *)
  | T_PROC_NAME => [("p", MKStr)]   (* ast_proc_name.c:23 struct proc_name *)
  | T_PATTERN => [("npaths", MKNum); ("paths", MKNodes)]   (* ast_pattern.c:23 struct pattern *)
  | T_NAMED_PATH => [("identifier", MKNode); ("path", MKNode)]   (* ast_named_path.c:23 struct named_path *)
  | T_SHORTEST_PATH => [("single", MKBool); ("path", MKNode)]   (* ast_shortest_path.c:23 struct shortest_path *)
  | T_PATTERN_PATH => [("nelements", MKNum); ("elements", MKNodes)]   (* ast_pattern_path.c:39 struct pattern_path *)
  | T_NODE_PATTERN => [("identifier", MKNode); ("properties", MKNode); ("nlabels", MKNum); ("labels", MKNodes)]   (* ast_node_pattern.c:23 struct node_pattern *)
  | T_REL_PATTERN => [("direction", MKDir); ("identifier", MKNode); ("varlength", MKNode); ("properties", MKNode); ("nreltypes", MKNum); ("reltypes", MKNodes)]   (* ast_rel_pattern.c:23 struct rel_pattern *)
  | T_RANGE => [("start", MKNode); ("end", MKNode)]   (* ast_range.c:24 struct range *)
  | T_COMMAND => [("name", MKNode); ("nargs", MKNum); ("args", MKNodes)]   (* ast_command.c:23 struct command *)
  | T_LINE_COMMENT => [("p", MKStr)]   (* ast_line_comment.c:23 struct comment *)
  | T_BLOCK_COMMENT => [("p", MKStr)]   (* ast_block_comment.c:23 struct comment *)
  | T_ERROR => [("p", MKStr)]   (* ast_error.c:23 struct error *)
  | T_MAP_PROJECTION => [("expression", MKNode); ("nselectors", MKNum); ("selectors", MKNodes)]   (* ast_map_projection.c:24 struct map_projection *)
  | T_MAP_PROJECTION_LITERAL => [("prop_name", MKNode); ("expression", MKNode)]   (* ast_map_projection_literal.c:23 struct map_projection_literal *)
  | T_MAP_PROJECTION_PROPERTY => [("prop_name", MKNode)]   (* ast_map_projection_property.c:23 struct map_projection_property *)
  | T_MAP_PROJECTION_IDENTIFIER => [("identifier", MKNode)]   (* ast_map_projection_identifier.c:23 struct map_projection_identifier *)
  | T_MAP_PROJECTION_ALL_PROPERTIES => []   (* ast_map_projection_all_properties.c:23 struct map_projection_all_properties *)
  | _ => []
  end.

(** The assignments that the constructor of each type makes, in order *)
Definition ctor_assigns (t : asttype) : list assign :=
  match t with
  | T_STATEMENT => [set "options" (SCopy 0 (mklen (NLen 0) 1 0) (mklen (NLen 0) 1 0)); set "noptions" (SNum (NLen 0)); set "body" (SVal 1)]   (* ast_statement.c:43-76 *)
  | T_CYPHER_OPTION => [set "version" (SVal 0); set "params" (SCopy 1 (mklen (NLen 1) 1 0) (mklen (NLen 1) 1 0)); set "nparams" (SNum (NLen 1))]   (* ast_cypher_option.c:50-83 *)
  | T_CYPHER_OPTION_PARAM => [set "name" (SVal 0); set "value" (SVal 1)]   (* ast_cypher_option_param.c:44-66 *)
  | T_EXPLAIN_OPTION => []   (* ast_explain_option.c:47-61 *)
  | T_PROFILE_OPTION => []   (* ast_profile_option.c:47-61 *)
  | T_CREATE_NODE_PROPS_INDEX => [set "label" (SVal 0); set "prop_names" (SCopy 1 (mklen (NLen 1) 1 0) (mklen (NLen 1) 1 0)); set "nprops" (SNum (NLen 1))]   (* ast_create_node_props_index.c:49-81 *)
  | T_DROP_NODE_PROPS_INDEX => [set "label" (SVal 0); set "prop_names" (SCopy 1 (mklen (NLen 1) 1 0) (mklen (NLen 1) 1 0)); set "nprops" (SNum (NLen 1))]   (* ast_drop_node_props_index.c:49-81 *)
  | T_CREATE_NODE_PROP_CONSTRAINT => [set "identifier" (SVal 0); set "label" (SVal 1); set "expression" (SVal 2); set "unique" (SVal 3)]   (* ast_create_node_prop_constraint.c:50-76 *)
  | T_DROP_NODE_PROP_CONSTRAINT => [set "identifier" (SVal 0); set "label" (SVal 1); set "expression" (SVal 2); set "unique" (SVal 3)]   (* ast_drop_node_prop_constraint.c:50-76 *)
  | T_CREATE_REL_PROP_CONSTRAINT => [set "identifier" (SVal 0); set "reltype" (SVal 1); set "expression" (SVal 2); set "unique" (SVal 3)]   (* ast_create_rel_prop_constraint.c:50-76 *)
  | T_DROP_REL_PROP_CONSTRAINT => [set "identifier" (SVal 0); set "reltype" (SVal 1); set "expression" (SVal 2); set "unique" (SVal 3)]   (* ast_drop_rel_prop_constraint.c:50-76 *)
  | T_QUERY => [set_if 0 "options" (SDup 0 (mklen (NLen 0) 1 0)); set_if 0 "noptions" (SNum (NLen 0)); set "clauses" (SCopy 1 (mklen (NLen 1) 1 0) (mklen (NLen 1) 1 0)); set "nclauses" (SNum (NLen 1))]   (* ast_query.c:46-87 *)
  | T_USING_PERIODIC_COMMIT => [set "limit" (SVal 0)]   (* ast_using_periodic_commit.c:48-68 *)
  | T_LOAD_CSV => [set "with_headers" (SVal 0); set "url" (SVal 1); set "identifier" (SVal 2); set "field_terminator" (SVal 3)]   (* ast_load_csv.c:50-76 *)
  | T_START => [set "points" (SCopy 0 (mklen (NLen 0) 1 0) (mklen (NLen 0) 1 0)); set "npoints" (SNum (NLen 0)); set "predicate" (SVal 1)]   (* ast_start.c:49-82 *)
  | T_NODE_INDEX_LOOKUP => [set "identifier" (SVal 0); set "index_name" (SVal 1); set "prop_name" (SVal 2); set "lookup" (SVal 3)]   (* ast_node_index_lookup.c:50-79 *)
  | T_NODE_INDEX_QUERY => [set "identifier" (SVal 0); set "index_name" (SVal 1); set "query" (SVal 2)]   (* ast_node_index_query.c:49-75 *)
  | T_NODE_ID_LOOKUP => [set "identifier" (SVal 0); set "ids" (SCopy 1 (mklen (NLen 1) 1 0) (mklen (NLen 1) 1 0)); set "nids" (SNum (NLen 1))]   (* ast_node_id_lookup.c:49-80 *)
  | T_ALL_NODES_SCAN => [set "identifier" (SVal 0)]   (* ast_all_nodes_scan.c:47-66 *)
  | T_REL_INDEX_LOOKUP => [set "identifier" (SVal 0); set "index_name" (SVal 1); set "prop_name" (SVal 2); set "lookup" (SVal 3)]   (* ast_rel_index_lookup.c:50-79 *)
  | T_REL_INDEX_QUERY => [set "identifier" (SVal 0); set "index_name" (SVal 1); set "query" (SVal 2)]   (* ast_rel_index_query.c:49-75 *)
  | T_REL_ID_LOOKUP => [set "identifier" (SVal 0); set "ids" (SCopy 1 (mklen (NLen 1) 1 0) (mklen (NLen 1) 1 0)); set "nids" (SNum (NLen 1))]   (* ast_rel_id_lookup.c:49-80 *)
  | T_ALL_RELS_SCAN => [set "identifier" (SVal 0)]   (* ast_all_rels_scan.c:47-66 *)
  | T_MATCH => [set "optional" (SVal 0); set "pattern" (SVal 1); set "hints" (SCopy 2 (mklen (NLen 2) 1 0) (mklen (NLen 2) 1 0)); set "nhints" (SNum (NLen 2)); set "predicate" (SVal 3)]   (* ast_match.c:51-87 *)
  | T_USING_INDEX => [set "identifier" (SVal 0); set "label" (SVal 1); set "prop_name" (SVal 2)]   (* ast_using_index.c:50-74 *)
  | T_USING_JOIN => [set "identifiers" (SCopy 0 (mklen (NLen 0) 1 0) (mklen (NLen 0) 1 0)); set "nidentifiers" (SNum (NLen 0))]   (* ast_using_join.c:49-80 *)
  | T_USING_SCAN => [set "identifier" (SVal 0); set "label" (SVal 1)]   (* ast_using_scan.c:49-70 *)
  | T_MERGE => [set "path" (SVal 0); set "actions" (SCopy 1 (mklen (NLen 1) 1 0) (mklen (NLen 1) 1 0)); set "nactions" (SNum (NLen 1))]   (* ast_merge.c:49-80 *)
  | T_ON_MATCH => [set "items" (SCopy 0 (mklen (NLen 0) 1 0) (mklen (NLen 0) 1 0)); set "nitems" (SNum (NLen 0))]   (* ast_on_match.c:48-77 *)
  | T_ON_CREATE => [set "items" (SCopy 0 (mklen (NLen 0) 1 0) (mklen (NLen 0) 1 0)); set "nitems" (SNum (NLen 0))]   (* ast_on_create.c:48-77 *)
  | T_CREATE => [set "unique" (SVal 0); set "pattern" (SVal 1)]   (* ast_create.c:48-68 *)
  | T_SET => [set "items" (SCopy 0 (mklen (NLen 0) 1 0) (mklen (NLen 0) 1 0)); set "nitems" (SNum (NLen 0))]   (* ast_set.c:48-77 *)
  | T_SET_PROPERTY => [set "property" (SVal 0); set "expression" (SVal 1)]   (* ast_set_property.c:48-70 *)
  | T_SET_ALL_PROPERTIES => [set "identifier" (SVal 0); set "expression" (SVal 1)]   (* ast_set_all_properties.c:48-71 *)
  | T_MERGE_PROPERTIES => [set "identifier" (SVal 0); set "expression" (SVal 1)]   (* ast_merge_properties.c:48-70 *)
  | T_SET_LABELS => [set "identifier" (SVal 0); set "labels" (SCopy 1 (mklen (NLen 1) 1 0) (mklen (NLen 1) 1 0)); set "nlabels" (SNum (NLen 1))]   (* ast_set_labels.c:49-81 *)
  | T_DELETE => [set "detach" (SVal 0); set "expressions" (SCopy 1 (mklen (NLen 1) 1 0) (mklen (NLen 1) 1 0)); set "nexpressions" (SNum (NLen 1))]   (* ast_delete.c:49-81 *)
  | T_REMOVE => [set "items" (SCopy 0 (mklen (NLen 0) 1 0) (mklen (NLen 0) 1 0)); set "nitems" (SNum (NLen 0))]   (* ast_remove.c:48-77 *)
  | T_REMOVE_LABELS => [set "identifier" (SVal 0); set "labels" (SCopy 1 (mklen (NLen 1) 1 0) (mklen (NLen 1) 1 0)); set "nlabels" (SNum (NLen 1))]   (* ast_remove_labels.c:49-81 *)
  | T_REMOVE_PROPERTY => [set "property" (SVal 0)]   (* ast_remove_property.c:47-67 *)
  | T_FOREACH => [set "identifier" (SVal 0); set "expression" (SVal 1); set "clauses" (SCopy 2 (mklen (NLen 2) 1 0) (mklen (NLen 2) 1 0)); set "nclauses" (SNum (NLen 2))]   (* ast_foreach.c:50-84 *)
  | T_WITH => [set "distinct" (SVal 0); set "include_existing" (SVal 1); set "projections" (SCopy 2 (mklen (NLen 2) 1 0) (mklen (NLen 2) 1 0)); set "nprojections" (SNum (NLen 2)); set "order_by" (SVal 3); set "skip" (SVal 4); set "limit" (SVal 5); set "predicate" (SVal 6)]   (* ast_with.c:54-99 *)
  | T_UNWIND => [set "expression" (SVal 0); set "alias" (SVal 1)]   (* ast_unwind.c:49-70 *)
  | T_CALL => [set "proc_name" (SVal 0); set_if 1 "args" (SDup 1 (mklen (NLen 1) 1 0)); set_if 1 "nargs" (SNum (NLen 1)); set "predicate" (SVal 3); set "projections" (SCopy 2 (mklen (NLen 2) 1 0) (mklen (NLen 2) 1 0)); set "nprojections" (SNum (NLen 2))]   (* ast_call.c:53-100 *)
  | T_RETURN => [set "distinct" (SVal 0); set "include_existing" (SVal 1); set "projections" (SCopy 2 (mklen (NLen 2) 1 0) (mklen (NLen 2) 1 0)); set "nprojections" (SNum (NLen 2)); set "order_by" (SVal 3); set "skip" (SVal 4); set "limit" (SVal 5)]   (* ast_return.c:53-96 *)
  | T_PROJECTION => [set "expression" (SVal 0); set "alias" (SVal 1)]   (* ast_projection.c:43-65 *)
  | T_ORDER_BY => [set "items" (SCopy 0 (mklen (NLen 0) 1 0) (mklen (NLen 0) 1 0)); set "nitems" (SNum (NLen 0))]   (* ast_order_by.c:43-72 *)
  | T_SORT_ITEM => [set "expression" (SVal 0); set "ascending" (SVal 1)]   (* ast_sort_item.c:43-63 *)
  | T_UNION => [set "all" (SVal 0)]   (* ast_union.c:47-63 *)
  | T_UNARY_OPERATOR => [set "op" (SVal 0); set "arg" (SVal 1)]   (* ast_unary_operator.c:49-70 *)
  | T_BINARY_OPERATOR => [set "op" (SVal 0); set "arg1" (SVal 1); set "arg2" (SVal 2)]   (* ast_binary_operator.c:50-74 *)
  | T_COMPARISON => [set "length" (SNum (NLen 0)); set "ops" (SDup 0 (mklen (NLen 0) 1 0)); set "args" (SCopy 1 (mklen (NLen 0) 1 1) (mklen (NLen 0) 1 1))]   (* ast_comparison.c:51-89 *)
  | T_APPLY_OPERATOR => [set "distinct" (SVal 1); set "func_name" (SVal 0); set "args" (SCopy 2 (mklen (NLen 2) 1 0) (mklen (NLen 2) 1 0)); set "nargs" (SNum (NLen 2))]   (* ast_apply_operator.c:51-85 *)
  | T_APPLY_ALL_OPERATOR => [set "distinct" (SVal 1); set "func_name" (SVal 0)]   (* ast_apply_all_operator.c:49-78 *)
  | T_PROPERTY_OPERATOR => [set "expression" (SVal 0); set "prop_name" (SVal 1)]   (* ast_property_operator.c:49-72 *)
  | T_SUBSCRIPT_OPERATOR => [set "expression" (SVal 0); set "subscript" (SVal 1)]   (* ast_subscript_operator.c:49-72 *)
  | T_SLICE_OPERATOR => [set "expression" (SVal 0); set "start" (SVal 1); set "end" (SVal 2)]   (* ast_slice_operator.c:50-76 *)
  | T_LABELS_OPERATOR => [set "expression" (SVal 0); set "labels" (SCopy 1 (mklen (NLen 1) 1 0) (mklen (NLen 1) 1 0)); set "nlabels" (SNum (NLen 1))]   (* ast_labels_operator.c:50-82 *)
  | T_LIST_COMPREHENSION => [set "identifier" (SVal 0); set "expression" (SVal 1); set "predicate" (SVal 2); set "eval" (SVal 3)]   (* ast_list_comprehension.c:82-119 *)
  | T_PATTERN_COMPREHENSION => [set "identifier" (SVal 0); set "pattern" (SVal 1); set "predicate" (SVal 2); set "eval" (SVal 3)]   (* ast_pattern_comprehension.c:50-82 *)
  | T_CASE => [set "expression" (SVal 0); set "alternatives" (SCopy 1 (mklen (NHalf 1) 2 0) (mklen (NHalf 1) 2 0)); set "nalternatives" (SNum (NHalf 1)); set "deflt" (SVal 2)]   (* ast_case.c:51-87 *)
  | T_FILTER => [set "identifier" (SVal 0); set "expression" (SVal 1); set "predicate" (SVal 2)]   (* ast_filter.c:64-89 *)
  | T_EXTRACT => [set "identifier" (SVal 0); set "expression" (SVal 1); set "eval" (SVal 2)]   (* ast_extract.c:64-89 *)
  | T_REDUCE => [set "accumulator" (SVal 0); set "init" (SVal 1); set "identifier" (SVal 2); set "expression" (SVal 3); set "eval" (SVal 4)]   (* ast_reduce.c:52-81 *)
  | T_ALL => [set "identifier" (SVal 0); set "expression" (SVal 1); set "predicate" (SVal 2)]   (* ast_all.c:64-89 *)
  | T_ANY => [set "identifier" (SVal 0); set "expression" (SVal 1); set "predicate" (SVal 2)]   (* ast_any.c:64-89 *)
  | T_SINGLE => [set "identifier" (SVal 0); set "expression" (SVal 1); set "predicate" (SVal 2)]   (* ast_single.c:64-89 *)
  | T_NONE => [set "identifier" (SVal 0); set "expression" (SVal 1); set "predicate" (SVal 2)]   (* ast_none.c:64-88 *)
  | T_COLLECTION => [set "elements" (SCopy 0 (mklen (NLen 0) 1 0) (mklen (NLen 0) 1 0)); set "nelements" (SNum (NLen 0))]   (* ast_collection.c:48-71 *)
  | T_MAP => [set "nentries" (SNum (NHalf 0)); set "pairs" (SCopy 0 (mklen (NHalf 0) 2 0) (mklen (NHalf 0) 2 0))]   (* ast_map.c:98-115 *)
  | T_IDENTIFIER => [set "p" (SStr 0)]   (* ast_identifier.c:47-64 *)
  | T_PARAMETER => [set "p" (SStr 0)]   (* ast_parameter.c:47-64 *)
  | T_STRING => [set "p" (SStr 0)]   (* ast_string.c:47-64 *)
  | T_INTEGER => [set "p" (SStr 0)]   (* ast_integer.c:47-64 *)
  | T_FLOAT => [set "p" (SStr 0)]   (* ast_float.c:47-64 *)
  | T_TRUE => []   (* ast_true.c:47-61 *)
  | T_FALSE => []   (* ast_false.c:47-61 *)
  | T_NULL => []   (* ast_null.c:47-61 *)
  | T_LABEL => [set "p" (SStr 0)]   (* ast_label.c:42-59 *)
  | T_RELTYPE => [set "p" (SStr 0)]   (* ast_reltype.c:42-59 *)
  | T_PROP_NAME => [set "p" (SStr 0)]   (* ast_prop_name.c:42-59 *)
  | T_FUNCTION_NAME => [set "p" (SStr 0)]   (* ast_function_name.c:42-59 *)
  | T_INDEX_NAME => [set "p" (SStr 0)]   (* ast_index_name.c:42-59 *)
  | T_PROC_NAME => [set "p" (SStr 0)]   (* ast_proc_name.c:42-59 *)
  | T_PATTERN => [set "paths" (SCopy 0 (mklen (NLen 0) 1 0) (mklen (NLen 0) 1 0)); set "npaths" (SNum (NLen 0))]   (* ast_pattern.c:43-72 *)
  | T_NAMED_PATH => [set "identifier" (SVal 0); set "path" (SVal 1)]   (* ast_named_path.c:55-76 *)
  | T_SHORTEST_PATH => [set "single" (SVal 0); set "path" (SVal 1)]   (* ast_shortest_path.c:55-75 *)
  | T_PATTERN_PATH => [set "elements" (SCopy 0 (mklen (NLen 0) 1 0) (mklen (NLen 0) 1 0)); set "nelements" (SNum (NLen 0))]   (* ast_pattern_path.c:71-105 *)
  | T_NODE_PATTERN => [set "identifier" (SVal 0); set "labels" (SCopy 1 (mklen (NLen 1) 1 0) (mklen (NLen 1) 1 0)); set "nlabels" (SNum (NLen 1)); set "properties" (SVal 2)]   (* ast_node_pattern.c:45-81 *)
  | T_REL_PATTERN => [set "direction" (SVal 0); set "identifier" (SVal 1); set "reltypes" (SCopy 2 (mklen (NLen 2) 1 0) (mklen (NLen 2) 1 0)); set "nreltypes" (SNum (NLen 2)); set "varlength" (SVal 4); set "properties" (SVal 3)]   (* ast_rel_pattern.c:47-89 *)
  | T_RANGE => [set "start" (SVal 0); set "end" (SVal 1)]   (* ast_range.c:44-65 *)
  | T_COMMAND => [set "name" (SVal 0); set "args" (SCopy 1 (mklen (NLen 1) 1 0) (mklen (NLen 1) 1 0)); set "nargs" (SNum (NLen 1))]   (* ast_command.c:44-75 *)
  | T_LINE_COMMENT => [set "p" (SStr 0)]   (* ast_line_comment.c:47-64 *)
  | T_BLOCK_COMMENT => [set "p" (SStr 0)]   (* ast_block_comment.c:47-64 *)
  | T_ERROR => [set "p" (SStr 0)]   (* ast_error.c:42-59 *)
  | T_MAP_PROJECTION => [set "expression" (SVal 0); set "selectors" (SCopy 1 (mklen (NLen 1) 1 0) (mklen (NLen 1) 1 0)); set "nselectors" (SNum (NLen 1))]   (* ast_map_projection.c:50-74 *)
  | T_MAP_PROJECTION_LITERAL => [set "prop_name" (SVal 0); set "expression" (SVal 1)]   (* ast_map_projection_literal.c:48-71 *)
  | T_MAP_PROJECTION_PROPERTY => [set "prop_name" (SVal 0)]   (* ast_map_projection_property.c:47-68 *)
  | T_MAP_PROJECTION_IDENTIFIER => [set "identifier" (SVal 0)]   (* ast_map_projection_identifier.c:47-68 *)
  | T_MAP_PROJECTION_ALL_PROPERTIES => []   (* ast_map_projection_all_properties.c:46-64 *)
  | _ => []
  end.

(** The parameters as stored by AstModel: their number of elements *)
Definition count_of (f : field) : option nat :=
  match f with
  | FList l => Some (List.length l)
  | FOpers l => Some (List.length l)
  | _ => None
  end.

Definition num (fs : list field) (q : nsrc) : option nat :=
  match q with
  | NLen k => match nth_error fs k with Some f => count_of f | None => None end
  | NHalf k => match nth_error fs k with Some f => option_map Nat.div2 (count_of f) | None => None end
  end.

Definition len (fs : list field) (e : lenexp) : option nat :=
  option_map (fun n => l_mul e * n + l_add e) (num fs (l_num e)).

(** The first [n] elements of an array parameter; [None]: it has fewer *)
Definition first (n : nat) (f : field) : option mval :=
  match f with
  | FList l => if Nat.leb n (List.length l) then Some (MNodes (firstn n l)) else None
  | FOpers l => if Nat.leb n (List.length l) then Some (MOpers (firstn n l)) else None
  | _ => None
  end.

(** [None]: undefined behaviour (reading or writing out of bounds), or ill-typed *)
Definition eval_src (fs : list field) (s : msrc) : option mval :=
  match s with
  | SVal k =>
      match nth_error fs k with
      | Some (FNode o) => Some (MNode o)
      | Some (FBool b) => Some (MBool b)
      | Some (FDir d) => Some (MDir d)
      | Some (FOper o) => Some (MOper o)
      | _ => None
      end
  | SNum q => option_map MNum (num fs q)
  | SDup k e =>
      match nth_error fs k, len fs e with Some f, Some n => first n f | _, _ => None end
  | SCopy k e room =>
      match nth_error fs k, len fs e, len fs room with
      | Some f, Some n, Some r => if Nat.leb n r then first n f else None
      | _, _, _ => None
      end
  | SStr k => match nth_error fs k with Some (FStr s) => Some (MStr (s ++ [NUL])%list) | _ => None end
  end.

(** One assignment on the members so far, newest first *)
Definition run_assign (fs : list field) (a : assign) (ms : list (string * mval)) : option (list (string * mval)) :=
  match (match a_guard a with None => Some 1 | Some k => num fs (NLen k) end) with
  | None => None
  | Some 0 => Some ms
  | Some (S _) => match eval_src fs (a_src a) with Some v => Some ((a_mem a, v) :: ms) | None => None end
  end.

Fixpoint run_assigns (fs : list field) (l : list assign) (ms : list (string * mval)) : option (list (string * mval)) :=
  match l with
  | [] => Some ms
  | a :: l => match run_assign fs a ms with Some ms => run_assigns fs l ms | None => None end
  end.

(** The structure of a node *)
Definition structure (n : node) : option (list (string * mval)) :=
  run_assigns (nflds n) (ctor_assigns (nty n)) (map (fun d => (fst d, zero (snd d))) (struct_decl (nty n))).

Definition lookup (m : string) (ms : list (string * mval)) : option mval :=
  option_map snd (find (fun d => String.eqb (fst d) m) ms).

(** node->m, where node has been obtained by container_of as the structure of
    nodes of type [owner]; [None]: it is not that structure *)
Definition member (n : node) (owner : asttype) (m : string) : option mval :=
  if type_eqb owner (nty n)
  then match structure n with Some ms => lookup m ms | None => None end
  else None.

(** ** Accessors *)

(** What an accessor returns *)
Inductive aret : Set :=
| RNode (o : option nat)
| RNum (n : nat)
| RBool (b : bool)
| RDir (d : dir)
| ROper (o : option oper)
| RStr (s : bytes).                        (* the bytes before the first NUL *)

(** [AAbort]: REQUIRE_TYPE fails (assert); [AUndef]: undefined behaviour *)
Inductive aout : Set := ARet (r : aret) | AAbort | AUndef.

Fixpoint upto_nul (s : bytes) : option bytes :=
  match s with
  | [] => None                             (* read out of bounds *)
  | c :: s => if Ascii.eqb c NUL then Some [] else option_map (cons c) (upto_nul s)
  end.

(** return node->m *)
Definition get (n : node) (owner : asttype) (m : string) : aout :=
  match member n owner m with
  | Some (MNode o) => ARet (RNode o)
  | Some (MNum k) => ARet (RNum k)
  | Some (MBool b) => ARet (RBool b)
  | Some (MDir d) => ARet (RDir d)
  | Some (MOper o) => ARet (ROper o)
  | Some (MStr s) => match upto_nul s with Some s => ARet (RStr s) | None => AUndef end
  | _ => AUndef
  end.

(** if (index >= node->cnt) return NULL; return node->m[index*mul + add]
    ([incl]: index > node->cnt) *)
Definition elem (n : node) (owner : asttype) (incl : bool) (cnt m : string) (mul add : nat) (i : nat) : aout :=
  match member n owner cnt, member n owner m with
  | Some (MNum k), Some (MNodes l) =>
      if (if incl then Nat.ltb k i else Nat.leb k i) then ARet (RNode None)
      else match nth_error l (i * mul + add) with Some x => ARet (RNode (Some x)) | None => AUndef end
  | Some (MNum k), Some (MOpers l) =>
      if (if incl then Nat.ltb k i else Nat.leb k i) then ARet (ROper None)
      else match nth_error l (i * mul + add) with Some x => ARet (ROper (Some x)) | None => AUndef end
  | _, _ => AUndef
  end.

(** Functions of the virtual tables of list comprehensions and of paths
    (astnode.h) *)
Inductive vfun : Set := V_get_identifier | V_get_expression | V_get_predicate | V_get_eval | V_nelements | V_get_element.

Inductive vbody : Set :=
| VNull
| VGet (owner : asttype) (m : string)
| VElem (owner : asttype) (incl : bool) (cnt m : string) (mul add : nat)
| VForward (owner : asttype) (m : string) (v : vfun).   (* cypher_ast_pattern_path_v(node->m) *)

Inductive acode : Set :=
| CGet (owner : asttype) (m : string)
| CElem (owner : asttype) (incl : bool) (cnt m : string) (mul add : nat)
| CVirtual (v : vfun).

(** The virtual function tables that the constructors install ([None]: nodes of
    the type have none) *)
Definition vtable (t : asttype) (v : vfun) : option vbody :=
  match t, v with
  | T_ALL, V_get_identifier => Some (VGet T_ALL "identifier")   (* ast_all.c:111-115 *)
  | T_ALL, V_get_expression => Some (VGet T_ALL "expression")   (* ast_all.c:118-122 *)
  | T_ALL, V_get_predicate => Some (VGet T_ALL "predicate")   (* ast_all.c:125-129 *)
  | T_ALL, V_get_eval => Some VNull   (* ast_all.c:132-135 *)
  | T_ANY, V_get_identifier => Some (VGet T_ANY "identifier")   (* ast_any.c:111-115 *)
  | T_ANY, V_get_expression => Some (VGet T_ANY "expression")   (* ast_any.c:118-122 *)
  | T_ANY, V_get_predicate => Some (VGet T_ANY "predicate")   (* ast_any.c:125-129 *)
  | T_ANY, V_get_eval => Some VNull   (* ast_any.c:132-135 *)
  | T_EXTRACT, V_get_identifier => Some (VGet T_EXTRACT "identifier")   (* ast_extract.c:111-116 *)
  | T_EXTRACT, V_get_expression => Some (VGet T_EXTRACT "expression")   (* ast_extract.c:119-124 *)
  | T_EXTRACT, V_get_predicate => Some VNull   (* ast_extract.c:127-130 *)
  | T_EXTRACT, V_get_eval => Some (VGet T_EXTRACT "eval")   (* ast_extract.c:133-138 *)
  | T_FILTER, V_get_identifier => Some (VGet T_FILTER "identifier")   (* ast_filter.c:111-116 *)
  | T_FILTER, V_get_expression => Some (VGet T_FILTER "expression")   (* ast_filter.c:119-124 *)
  | T_FILTER, V_get_predicate => Some (VGet T_FILTER "predicate")   (* ast_filter.c:127-132 *)
  | T_FILTER, V_get_eval => Some VNull   (* ast_filter.c:135-138 *)
  | T_LIST_COMPREHENSION, V_get_identifier => Some (VGet T_LIST_COMPREHENSION "identifier")   (* ast_list_comprehension.c:188-193 *)
  | T_LIST_COMPREHENSION, V_get_expression => Some (VGet T_LIST_COMPREHENSION "expression")   (* ast_list_comprehension.c:196-201 *)
  | T_LIST_COMPREHENSION, V_get_predicate => Some (VGet T_LIST_COMPREHENSION "predicate")   (* ast_list_comprehension.c:204-209 *)
  | T_LIST_COMPREHENSION, V_get_eval => Some (VGet T_LIST_COMPREHENSION "eval")   (* ast_list_comprehension.c:212-217 *)
  | T_NAMED_PATH, V_nelements => Some (VForward T_NAMED_PATH "path" V_nelements)   (* ast_named_path.c:120-125 *)
  | T_NAMED_PATH, V_get_element => Some (VForward T_NAMED_PATH "path" V_get_element)   (* ast_named_path.c:128-134 *)
  | T_NONE, V_get_identifier => Some (VGet T_NONE "identifier")   (* ast_none.c:110-114 *)
  | T_NONE, V_get_expression => Some (VGet T_NONE "expression")   (* ast_none.c:117-121 *)
  | T_NONE, V_get_predicate => Some (VGet T_NONE "predicate")   (* ast_none.c:124-128 *)
  | T_NONE, V_get_eval => Some VNull   (* ast_none.c:131-134 *)
  | T_PATTERN_PATH, V_nelements => Some (VGet T_PATTERN_PATH "nelements")   (* ast_pattern_path.c:158-163 *)
  | T_PATTERN_PATH, V_get_element => Some (VElem T_PATTERN_PATH false "nelements" "elements" 1 0)   (* ast_pattern_path.c:166-176 *)
  | T_SHORTEST_PATH, V_nelements => Some (VForward T_SHORTEST_PATH "path" V_nelements)   (* ast_shortest_path.c:117-122 *)
  | T_SHORTEST_PATH, V_get_element => Some (VForward T_SHORTEST_PATH "path" V_get_element)   (* ast_shortest_path.c:125-131 *)
  | T_SINGLE, V_get_identifier => Some (VGet T_SINGLE "identifier")   (* ast_single.c:111-116 *)
  | T_SINGLE, V_get_expression => Some (VGet T_SINGLE "expression")   (* ast_single.c:119-124 *)
  | T_SINGLE, V_get_predicate => Some (VGet T_SINGLE "predicate")   (* ast_single.c:127-132 *)
  | T_SINGLE, V_get_eval => Some VNull   (* ast_single.c:135-138 *)
  | _, _ => None
  end.

(** The accessors, named as in the library without the prefix cypher_ast_ *)
Inductive accessor : Set :=
| A_statement_noptions
| A_statement_get_option
| A_statement_get_body
| A_cypher_option_get_version
| A_cypher_option_nparams
| A_cypher_option_get_param
| A_cypher_option_param_get_name
| A_cypher_option_param_get_value
| A_create_node_props_index_get_label
| A_create_node_props_index_nprops
| A_create_node_props_index_get_prop_name
| A_drop_node_props_index_get_label
| A_drop_node_props_index_nprops
| A_drop_node_props_index_get_prop_name
| A_create_node_prop_constraint_get_identifier
| A_create_node_prop_constraint_get_label
| A_create_node_prop_constraint_get_expression
| A_create_node_prop_constraint_is_unique
| A_drop_node_prop_constraint_get_identifier
| A_drop_node_prop_constraint_get_label
| A_drop_node_prop_constraint_get_expression
| A_drop_node_prop_constraint_is_unique
| A_create_rel_prop_constraint_get_identifier
| A_create_rel_prop_constraint_get_reltype
| A_create_rel_prop_constraint_get_expression
| A_create_rel_prop_constraint_is_unique
| A_drop_rel_prop_constraint_get_identifier
| A_drop_rel_prop_constraint_get_reltype
| A_drop_rel_prop_constraint_get_expression
| A_drop_rel_prop_constraint_is_unique
| A_query_noptions
| A_query_get_option
| A_query_nclauses
| A_query_get_clause
| A_using_periodic_commit_get_limit
| A_load_csv_has_with_headers
| A_load_csv_get_url
| A_load_csv_get_identifier
| A_load_csv_get_field_terminator
| A_start_npoints
| A_start_get_point
| A_start_get_predicate
| A_node_index_lookup_get_identifier
| A_node_index_lookup_get_index_name
| A_node_index_lookup_get_prop_name
| A_node_index_lookup_get_lookup
| A_node_index_query_get_identifier
| A_node_index_query_get_index_name
| A_node_index_query_get_query
| A_node_id_lookup_get_identifier
| A_node_id_lookup_nids
| A_node_id_lookup_get_id
| A_all_nodes_scan_get_identifier
| A_rel_index_lookup_get_identifier
| A_rel_index_lookup_get_index_name
| A_rel_index_lookup_get_prop_name
| A_rel_index_lookup_get_lookup
| A_rel_index_query_get_identifier
| A_rel_index_query_get_index_name
| A_rel_index_query_get_query
| A_rel_id_lookup_get_identifier
| A_rel_id_lookup_nids
| A_rel_id_lookup_get_id
| A_all_rels_scan_get_identifier
| A_match_is_optional
| A_match_get_pattern
| A_match_nhints
| A_match_get_hint
| A_match_get_predicate
| A_using_index_get_identifier
| A_using_index_get_label
| A_using_index_get_prop_name
| A_using_join_nidentifiers
| A_using_join_get_identifier
| A_using_scan_get_identifier
| A_using_scan_get_label
| A_merge_get_pattern_path
| A_merge_nactions
| A_merge_get_action
| A_on_match_nitems
| A_on_match_get_item
| A_on_create_nitems
| A_on_create_get_item
| A_create_is_unique
| A_create_get_pattern
| A_set_nitems
| A_set_get_item
| A_set_property_get_property
| A_set_property_get_expression
| A_set_all_properties_get_identifier
| A_set_all_properties_get_expression
| A_merge_properties_get_identifier
| A_merge_properties_get_expression
| A_set_labels_get_identifier
| A_set_labels_nlabels
| A_set_labels_get_label
| A_delete_has_detach
| A_delete_nexpressions
| A_delete_get_expression
| A_remove_nitems
| A_remove_get_item
| A_remove_labels_get_identifier
| A_remove_labels_nlabels
| A_remove_labels_get_label
| A_remove_property_get_property
| A_foreach_get_identifier
| A_foreach_get_expression
| A_foreach_nclauses
| A_foreach_get_clause
| A_with_is_distinct
| A_with_has_include_existing
| A_with_nprojections
| A_with_get_projection
| A_with_get_order_by
| A_with_get_skip
| A_with_get_limit
| A_with_get_predicate
| A_unwind_get_expression
| A_unwind_get_alias
| A_call_get_proc_name
| A_call_narguments
| A_call_get_argument
| A_call_nprojections
| A_call_get_projection
| A_call_get_predicate
| A_return_is_distinct
| A_return_has_include_existing
| A_return_nprojections
| A_return_get_projection
| A_return_get_order_by
| A_return_get_skip
| A_return_get_limit
| A_projection_get_expression
| A_projection_get_alias
| A_order_by_nitems
| A_order_by_get_item
| A_sort_item_get_expression
| A_sort_item_is_ascending
| A_union_has_all
| A_unary_operator_get_operator
| A_unary_operator_get_argument
| A_binary_operator_get_operator
| A_binary_operator_get_argument1
| A_binary_operator_get_argument2
| A_comparison_get_length
| A_comparison_get_operator
| A_comparison_get_argument
| A_apply_operator_get_func_name
| A_apply_operator_get_distinct
| A_apply_operator_narguments
| A_apply_operator_get_argument
| A_apply_all_operator_get_func_name
| A_apply_all_operator_get_distinct
| A_property_operator_get_expression
| A_property_operator_get_prop_name
| A_subscript_operator_get_expression
| A_subscript_operator_get_subscript
| A_slice_operator_get_expression
| A_slice_operator_get_start
| A_slice_operator_get_end
| A_map_projection_get_expression
| A_map_projection_nselectors
| A_map_projection_get_selector
| A_map_projection_literal_get_prop_name
| A_map_projection_literal_get_expression
| A_map_projection_property_get_prop_name
| A_map_projection_identifier_get_identifier
| A_labels_operator_get_expression
| A_labels_operator_nlabels
| A_labels_operator_get_label
| A_list_comprehension_get_identifier
| A_list_comprehension_get_expression
| A_list_comprehension_get_predicate
| A_list_comprehension_get_eval
| A_pattern_comprehension_get_identifier
| A_pattern_comprehension_get_pattern
| A_pattern_comprehension_get_predicate
| A_pattern_comprehension_get_eval
| A_reduce_get_accumulator
| A_reduce_get_init
| A_reduce_get_identifier
| A_reduce_get_expression
| A_reduce_get_eval
| A_case_get_expression
| A_case_nalternatives
| A_case_get_predicate
| A_case_get_value
| A_case_get_default
| A_collection_length
| A_collection_get
| A_map_nentries
| A_map_get_key
| A_map_get_value
| A_identifier_get_name
| A_parameter_get_name
| A_string_get_value
| A_integer_get_valuestr
| A_float_get_valuestr
| A_label_get_name
| A_reltype_get_name
| A_prop_name_get_value
| A_function_name_get_value
| A_index_name_get_value
| A_proc_name_get_value
| A_pattern_npaths
| A_pattern_get_path
| A_named_path_get_identifier
| A_named_path_get_path
| A_shortest_path_is_single
| A_shortest_path_get_path
| A_pattern_path_nelements
| A_pattern_path_get_element
| A_node_pattern_get_identifier
| A_node_pattern_nlabels
| A_node_pattern_get_label
| A_node_pattern_get_properties
| A_rel_pattern_get_direction
| A_rel_pattern_get_identifier
| A_rel_pattern_nreltypes
| A_rel_pattern_get_reltype
| A_rel_pattern_get_varlength
| A_rel_pattern_get_properties
| A_range_get_start
| A_range_get_end
| A_command_get_name
| A_command_narguments
| A_command_get_argument
| A_line_comment_get_value
| A_block_comment_get_value
| A_error_get_value.

Definition all_accessors : list accessor :=
  [A_statement_noptions; A_statement_get_option; A_statement_get_body; A_cypher_option_get_version; A_cypher_option_nparams; A_cypher_option_get_param; A_cypher_option_param_get_name; A_cypher_option_param_get_value; A_create_node_props_index_get_label; A_create_node_props_index_nprops; A_create_node_props_index_get_prop_name; A_drop_node_props_index_get_label; A_drop_node_props_index_nprops; A_drop_node_props_index_get_prop_name; A_create_node_prop_constraint_get_identifier; A_create_node_prop_constraint_get_label; A_create_node_prop_constraint_get_expression; A_create_node_prop_constraint_is_unique; A_drop_node_prop_constraint_get_identifier; A_drop_node_prop_constraint_get_label; A_drop_node_prop_constraint_get_expression; A_drop_node_prop_constraint_is_unique; A_create_rel_prop_constraint_get_identifier; A_create_rel_prop_constraint_get_reltype; A_create_rel_prop_constraint_get_expression; A_create_rel_prop_constraint_is_unique; A_drop_rel_prop_constraint_get_identifier; A_drop_rel_prop_constraint_get_reltype; A_drop_rel_prop_constraint_get_expression; A_drop_rel_prop_constraint_is_unique; A_query_noptions; A_query_get_option; A_query_nclauses; A_query_get_clause; A_using_periodic_commit_get_limit; A_load_csv_has_with_headers; A_load_csv_get_url; A_load_csv_get_identifier; A_load_csv_get_field_terminator; A_start_npoints; A_start_get_point; A_start_get_predicate; A_node_index_lookup_get_identifier; A_node_index_lookup_get_index_name; A_node_index_lookup_get_prop_name; A_node_index_lookup_get_lookup; A_node_index_query_get_identifier; A_node_index_query_get_index_name; A_node_index_query_get_query; A_node_id_lookup_get_identifier; A_node_id_lookup_nids; A_node_id_lookup_get_id; A_all_nodes_scan_get_identifier; A_rel_index_lookup_get_identifier; A_rel_index_lookup_get_index_name; A_rel_index_lookup_get_prop_name; A_rel_index_lookup_get_lookup; A_rel_index_query_get_identifier; A_rel_index_query_get_index_name; A_rel_index_query_get_query; A_rel_id_lookup_get_identifier; A_rel_id_lookup_nids; A_rel_id_lookup_get_id; A_all_rels_scan_get_identifier; A_match_is_optional; A_match_get_pattern; A_match_nhints; A_match_get_hint; A_match_get_predicate; A_using_index_get_identifier; A_using_index_get_label; A_using_index_get_prop_name; A_using_join_nidentifiers; A_using_join_get_identifier; A_using_scan_get_identifier; A_using_scan_get_label; A_merge_get_pattern_path; A_merge_nactions; A_merge_get_action; A_on_match_nitems; A_on_match_get_item; A_on_create_nitems; A_on_create_get_item; A_create_is_unique; A_create_get_pattern; A_set_nitems; A_set_get_item; A_set_property_get_property; A_set_property_get_expression; A_set_all_properties_get_identifier; A_set_all_properties_get_expression; A_merge_properties_get_identifier; A_merge_properties_get_expression; A_set_labels_get_identifier; A_set_labels_nlabels; A_set_labels_get_label; A_delete_has_detach; A_delete_nexpressions; A_delete_get_expression; A_remove_nitems; A_remove_get_item; A_remove_labels_get_identifier; A_remove_labels_nlabels; A_remove_labels_get_label; A_remove_property_get_property; A_foreach_get_identifier; A_foreach_get_expression; A_foreach_nclauses; A_foreach_get_clause; A_with_is_distinct; A_with_has_include_existing; A_with_nprojections; A_with_get_projection; A_with_get_order_by; A_with_get_skip; A_with_get_limit; A_with_get_predicate; A_unwind_get_expression; A_unwind_get_alias; A_call_get_proc_name; A_call_narguments; A_call_get_argument; A_call_nprojections; A_call_get_projection; A_call_get_predicate; A_return_is_distinct; A_return_has_include_existing; A_return_nprojections; A_return_get_projection; A_return_get_order_by; A_return_get_skip; A_return_get_limit; A_projection_get_expression; A_projection_get_alias; A_order_by_nitems; A_order_by_get_item; A_sort_item_get_expression; A_sort_item_is_ascending; A_union_has_all; A_unary_operator_get_operator; A_unary_operator_get_argument; A_binary_operator_get_operator; A_binary_operator_get_argument1; A_binary_operator_get_argument2; A_comparison_get_length; A_comparison_get_operator; A_comparison_get_argument; A_apply_operator_get_func_name; A_apply_operator_get_distinct; A_apply_operator_narguments; A_apply_operator_get_argument; A_apply_all_operator_get_func_name; A_apply_all_operator_get_distinct; A_property_operator_get_expression; A_property_operator_get_prop_name; A_subscript_operator_get_expression; A_subscript_operator_get_subscript; A_slice_operator_get_expression; A_slice_operator_get_start; A_slice_operator_get_end; A_map_projection_get_expression; A_map_projection_nselectors; A_map_projection_get_selector; A_map_projection_literal_get_prop_name; A_map_projection_literal_get_expression; A_map_projection_property_get_prop_name; A_map_projection_identifier_get_identifier; A_labels_operator_get_expression; A_labels_operator_nlabels; A_labels_operator_get_label; A_list_comprehension_get_identifier; A_list_comprehension_get_expression; A_list_comprehension_get_predicate; A_list_comprehension_get_eval; A_pattern_comprehension_get_identifier; A_pattern_comprehension_get_pattern; A_pattern_comprehension_get_predicate; A_pattern_comprehension_get_eval; A_reduce_get_accumulator; A_reduce_get_init; A_reduce_get_identifier; A_reduce_get_expression; A_reduce_get_eval; A_case_get_expression; A_case_nalternatives; A_case_get_predicate; A_case_get_value; A_case_get_default; A_collection_length; A_collection_get; A_map_nentries; A_map_get_key; A_map_get_value; A_identifier_get_name; A_parameter_get_name; A_string_get_value; A_integer_get_valuestr; A_float_get_valuestr; A_label_get_name; A_reltype_get_name; A_prop_name_get_value; A_function_name_get_value; A_index_name_get_value; A_proc_name_get_value; A_pattern_npaths; A_pattern_get_path; A_named_path_get_identifier; A_named_path_get_path; A_shortest_path_is_single; A_shortest_path_get_path; A_pattern_path_nelements; A_pattern_path_get_element; A_node_pattern_get_identifier; A_node_pattern_nlabels; A_node_pattern_get_label; A_node_pattern_get_properties; A_rel_pattern_get_direction; A_rel_pattern_get_identifier; A_rel_pattern_nreltypes; A_rel_pattern_get_reltype; A_rel_pattern_get_varlength; A_rel_pattern_get_properties; A_range_get_start; A_range_get_end; A_command_get_name; A_command_narguments; A_command_get_argument; A_line_comment_get_value; A_block_comment_get_value; A_error_get_value].

(** The type that REQUIRE_TYPE asks for, and the rest of the body *)
Definition acc_body (a : accessor) : asttype * acode :=
  match a with
  | A_statement_noptions => (T_STATEMENT, CGet T_STATEMENT "noptions")   (* ast_statement.c:106-111 *)
  | A_statement_get_option => (T_STATEMENT, CElem T_STATEMENT false "noptions" "options" 1 0)   (* ast_statement.c:114-124 *)
  | A_statement_get_body => (T_STATEMENT, CGet T_STATEMENT "body")   (* ast_statement.c:127-133 *)
  | A_cypher_option_get_version => (T_CYPHER_OPTION, CGet T_CYPHER_OPTION "version")   (* ast_cypher_option.c:115-122 *)
  | A_cypher_option_nparams => (T_CYPHER_OPTION, CGet T_CYPHER_OPTION "nparams")   (* ast_cypher_option.c:125-131 *)
  | A_cypher_option_get_param => (T_CYPHER_OPTION, CElem T_CYPHER_OPTION false "nparams" "params" 1 0)   (* ast_cypher_option.c:134-145 *)
  | A_cypher_option_param_get_name => (T_CYPHER_OPTION_PARAM, CGet T_CYPHER_OPTION_PARAM "name")   (* ast_cypher_option_param.c:84-91 *)
  | A_cypher_option_param_get_value => (T_CYPHER_OPTION_PARAM, CGet T_CYPHER_OPTION_PARAM "value")   (* ast_cypher_option_param.c:94-101 *)
  | A_create_node_props_index_get_label => (T_CREATE_NODE_PROPS_INDEX, CGet T_CREATE_NODE_PROPS_INDEX "label")   (* ast_create_node_props_index.c:113-120 *)
  | A_create_node_props_index_nprops => (T_CREATE_NODE_PROPS_INDEX, CGet T_CREATE_NODE_PROPS_INDEX "nprops")   (* ast_create_node_props_index.c:123-130 *)
  | A_create_node_props_index_get_prop_name => (T_CREATE_NODE_PROPS_INDEX, CElem T_CREATE_NODE_PROPS_INDEX false "nprops" "prop_names" 1 0)   (* ast_create_node_props_index.c:133-144 *)
  | A_drop_node_props_index_get_label => (T_DROP_NODE_PROPS_INDEX, CGet T_DROP_NODE_PROPS_INDEX "label")   (* ast_drop_node_props_index.c:112-119 *)
  | A_drop_node_props_index_nprops => (T_DROP_NODE_PROPS_INDEX, CGet T_DROP_NODE_PROPS_INDEX "nprops")   (* ast_drop_node_props_index.c:122-129 *)
  | A_drop_node_props_index_get_prop_name => (T_DROP_NODE_PROPS_INDEX, CElem T_DROP_NODE_PROPS_INDEX false "nprops" "prop_names" 1 0)   (* ast_drop_node_props_index.c:132-143 *)
  | A_create_node_prop_constraint_get_identifier => (T_CREATE_NODE_PROP_CONSTRAINT, CGet T_CREATE_NODE_PROP_CONSTRAINT "identifier")   (* ast_create_node_prop_constraint.c:94-100 *)
  | A_create_node_prop_constraint_get_label => (T_CREATE_NODE_PROP_CONSTRAINT, CGet T_CREATE_NODE_PROP_CONSTRAINT "label")   (* ast_create_node_prop_constraint.c:103-109 *)
  | A_create_node_prop_constraint_get_expression => (T_CREATE_NODE_PROP_CONSTRAINT, CGet T_CREATE_NODE_PROP_CONSTRAINT "expression")   (* ast_create_node_prop_constraint.c:112-118 *)
  | A_create_node_prop_constraint_is_unique => (T_CREATE_NODE_PROP_CONSTRAINT, CGet T_CREATE_NODE_PROP_CONSTRAINT "unique")   (* ast_create_node_prop_constraint.c:121-127 *)
  | A_drop_node_prop_constraint_get_identifier => (T_DROP_NODE_PROP_CONSTRAINT, CGet T_DROP_NODE_PROP_CONSTRAINT "identifier")   (* ast_drop_node_prop_constraint.c:94-100 *)
  | A_drop_node_prop_constraint_get_label => (T_DROP_NODE_PROP_CONSTRAINT, CGet T_DROP_NODE_PROP_CONSTRAINT "label")   (* ast_drop_node_prop_constraint.c:103-109 *)
  | A_drop_node_prop_constraint_get_expression => (T_DROP_NODE_PROP_CONSTRAINT, CGet T_DROP_NODE_PROP_CONSTRAINT "expression")   (* ast_drop_node_prop_constraint.c:112-118 *)
  | A_drop_node_prop_constraint_is_unique => (T_DROP_NODE_PROP_CONSTRAINT, CGet T_DROP_NODE_PROP_CONSTRAINT "unique")   (* ast_drop_node_prop_constraint.c:121-127 *)
  | A_create_rel_prop_constraint_get_identifier => (T_CREATE_REL_PROP_CONSTRAINT, CGet T_CREATE_REL_PROP_CONSTRAINT "identifier")   (* ast_create_rel_prop_constraint.c:94-100 *)
  | A_create_rel_prop_constraint_get_reltype => (T_CREATE_REL_PROP_CONSTRAINT, CGet T_CREATE_REL_PROP_CONSTRAINT "reltype")   (* ast_create_rel_prop_constraint.c:103-109 *)
  | A_create_rel_prop_constraint_get_expression => (T_CREATE_REL_PROP_CONSTRAINT, CGet T_CREATE_REL_PROP_CONSTRAINT "expression")   (* ast_create_rel_prop_constraint.c:112-118 *)
  | A_create_rel_prop_constraint_is_unique => (T_CREATE_REL_PROP_CONSTRAINT, CGet T_CREATE_REL_PROP_CONSTRAINT "unique")   (* ast_create_rel_prop_constraint.c:121-127 *)
  | A_drop_rel_prop_constraint_get_identifier => (T_DROP_REL_PROP_CONSTRAINT, CGet T_DROP_REL_PROP_CONSTRAINT "identifier")   (* ast_drop_rel_prop_constraint.c:94-100 *)
  | A_drop_rel_prop_constraint_get_reltype => (T_DROP_REL_PROP_CONSTRAINT, CGet T_DROP_REL_PROP_CONSTRAINT "reltype")   (* ast_drop_rel_prop_constraint.c:103-109 *)
  | A_drop_rel_prop_constraint_get_expression => (T_DROP_REL_PROP_CONSTRAINT, CGet T_DROP_REL_PROP_CONSTRAINT "expression")   (* ast_drop_rel_prop_constraint.c:112-118 *)
  | A_drop_rel_prop_constraint_is_unique => (T_DROP_REL_PROP_CONSTRAINT, CGet T_DROP_REL_PROP_CONSTRAINT "unique")   (* ast_drop_rel_prop_constraint.c:121-127 *)
  | A_query_noptions => (T_QUERY, CGet T_QUERY "noptions")   (* ast_query.c:135-140 *)
  | A_query_get_option => (T_QUERY, CElem T_QUERY false "noptions" "options" 1 0)   (* ast_query.c:143-153 *)
  | A_query_nclauses => (T_QUERY, CGet T_QUERY "nclauses")   (* ast_query.c:156-161 *)
  | A_query_get_clause => (T_QUERY, CElem T_QUERY false "nclauses" "clauses" 1 0)   (* ast_query.c:164-174 *)
  | A_using_periodic_commit_get_limit => (T_USING_PERIODIC_COMMIT, CGet T_USING_PERIODIC_COMMIT "limit")   (* ast_using_periodic_commit.c:86-93 *)
  | A_load_csv_has_with_headers => (T_LOAD_CSV, CGet T_LOAD_CSV "with_headers")   (* ast_load_csv.c:95-100 *)
  | A_load_csv_get_url => (T_LOAD_CSV, CGet T_LOAD_CSV "url")   (* ast_load_csv.c:103-109 *)
  | A_load_csv_get_identifier => (T_LOAD_CSV, CGet T_LOAD_CSV "identifier")   (* ast_load_csv.c:112-118 *)
  | A_load_csv_get_field_terminator => (T_LOAD_CSV, CGet T_LOAD_CSV "field_terminator")   (* ast_load_csv.c:121-127 *)
  | A_start_npoints => (T_START, CGet T_START "npoints")   (* ast_start.c:113-118 *)
  | A_start_get_point => (T_START, CElem T_START false "npoints" "points" 1 0)   (* ast_start.c:121-131 *)
  | A_start_get_predicate => (T_START, CGet T_START "predicate")   (* ast_start.c:134-140 *)
  | A_node_index_lookup_get_identifier => (T_NODE_INDEX_LOOKUP, CGet T_NODE_INDEX_LOOKUP "identifier")   (* ast_node_index_lookup.c:99-106 *)
  | A_node_index_lookup_get_index_name => (T_NODE_INDEX_LOOKUP, CGet T_NODE_INDEX_LOOKUP "index_name")   (* ast_node_index_lookup.c:109-116 *)
  | A_node_index_lookup_get_prop_name => (T_NODE_INDEX_LOOKUP, CGet T_NODE_INDEX_LOOKUP "prop_name")   (* ast_node_index_lookup.c:119-126 *)
  | A_node_index_lookup_get_lookup => (T_NODE_INDEX_LOOKUP, CGet T_NODE_INDEX_LOOKUP "lookup")   (* ast_node_index_lookup.c:129-136 *)
  | A_node_index_query_get_identifier => (T_NODE_INDEX_QUERY, CGet T_NODE_INDEX_QUERY "identifier")   (* ast_node_index_query.c:94-101 *)
  | A_node_index_query_get_index_name => (T_NODE_INDEX_QUERY, CGet T_NODE_INDEX_QUERY "index_name")   (* ast_node_index_query.c:104-111 *)
  | A_node_index_query_get_query => (T_NODE_INDEX_QUERY, CGet T_NODE_INDEX_QUERY "query")   (* ast_node_index_query.c:114-121 *)
  | A_node_id_lookup_get_identifier => (T_NODE_ID_LOOKUP, CGet T_NODE_ID_LOOKUP "identifier")   (* ast_node_id_lookup.c:110-117 *)
  | A_node_id_lookup_nids => (T_NODE_ID_LOOKUP, CGet T_NODE_ID_LOOKUP "nids")   (* ast_node_id_lookup.c:120-126 *)
  | A_node_id_lookup_get_id => (T_NODE_ID_LOOKUP, CElem T_NODE_ID_LOOKUP false "nids" "ids" 1 0)   (* ast_node_id_lookup.c:129-140 *)
  | A_all_nodes_scan_get_identifier => (T_ALL_NODES_SCAN, CGet T_ALL_NODES_SCAN "identifier")   (* ast_all_nodes_scan.c:83-90 *)
  | A_rel_index_lookup_get_identifier => (T_REL_INDEX_LOOKUP, CGet T_REL_INDEX_LOOKUP "identifier")   (* ast_rel_index_lookup.c:99-106 *)
  | A_rel_index_lookup_get_index_name => (T_REL_INDEX_LOOKUP, CGet T_REL_INDEX_LOOKUP "index_name")   (* ast_rel_index_lookup.c:109-116 *)
  | A_rel_index_lookup_get_prop_name => (T_REL_INDEX_LOOKUP, CGet T_REL_INDEX_LOOKUP "prop_name")   (* ast_rel_index_lookup.c:119-126 *)
  | A_rel_index_lookup_get_lookup => (T_REL_INDEX_LOOKUP, CGet T_REL_INDEX_LOOKUP "lookup")   (* ast_rel_index_lookup.c:129-136 *)
  | A_rel_index_query_get_identifier => (T_REL_INDEX_QUERY, CGet T_REL_INDEX_QUERY "identifier")   (* ast_rel_index_query.c:94-101 *)
  | A_rel_index_query_get_index_name => (T_REL_INDEX_QUERY, CGet T_REL_INDEX_QUERY "index_name")   (* ast_rel_index_query.c:104-111 *)
  | A_rel_index_query_get_query => (T_REL_INDEX_QUERY, CGet T_REL_INDEX_QUERY "query")   (* ast_rel_index_query.c:114-121 *)
  | A_rel_id_lookup_get_identifier => (T_REL_ID_LOOKUP, CGet T_REL_ID_LOOKUP "identifier")   (* ast_rel_id_lookup.c:110-117 *)
  | A_rel_id_lookup_nids => (T_REL_ID_LOOKUP, CGet T_REL_ID_LOOKUP "nids")   (* ast_rel_id_lookup.c:120-126 *)
  | A_rel_id_lookup_get_id => (T_REL_ID_LOOKUP, CElem T_REL_ID_LOOKUP false "nids" "ids" 1 0)   (* ast_rel_id_lookup.c:129-140 *)
  | A_all_rels_scan_get_identifier => (T_ALL_RELS_SCAN, CGet T_ALL_RELS_SCAN "identifier")   (* ast_all_rels_scan.c:83-90 *)
  | A_match_is_optional => (T_MATCH, CGet T_MATCH "optional")   (* ast_match.c:120-125 *)
  | A_match_get_pattern => (T_MATCH, CGet T_MATCH "pattern")   (* ast_match.c:128-134 *)
  | A_match_nhints => (T_MATCH, CGet T_MATCH "nhints")   (* ast_match.c:137-142 *)
  | A_match_get_hint => (T_MATCH, CElem T_MATCH false "nhints" "hints" 1 0)   (* ast_match.c:145-155 *)
  | A_match_get_predicate => (T_MATCH, CGet T_MATCH "predicate")   (* ast_match.c:158-164 *)
  | A_using_index_get_identifier => (T_USING_INDEX, CGet T_USING_INDEX "identifier")   (* ast_using_index.c:93-100 *)
  | A_using_index_get_label => (T_USING_INDEX, CGet T_USING_INDEX "label")   (* ast_using_index.c:103-110 *)
  | A_using_index_get_prop_name => (T_USING_INDEX, CGet T_USING_INDEX "prop_name")   (* ast_using_index.c:113-120 *)
  | A_using_join_nidentifiers => (T_USING_JOIN, CGet T_USING_JOIN "nidentifiers")   (* ast_using_join.c:109-115 *)
  | A_using_join_get_identifier => (T_USING_JOIN, CElem T_USING_JOIN false "nidentifiers" "identifiers" 1 0)   (* ast_using_join.c:118-129 *)
  | A_using_scan_get_identifier => (T_USING_SCAN, CGet T_USING_SCAN "identifier")   (* ast_using_scan.c:88-95 *)
  | A_using_scan_get_label => (T_USING_SCAN, CGet T_USING_SCAN "label")   (* ast_using_scan.c:98-105 *)
  | A_merge_get_pattern_path => (T_MERGE, CGet T_MERGE "path")   (* ast_merge.c:110-116 *)
  | A_merge_nactions => (T_MERGE, CGet T_MERGE "nactions")   (* ast_merge.c:119-124 *)
  | A_merge_get_action => (T_MERGE, CElem T_MERGE false "nactions" "actions" 1 0)   (* ast_merge.c:127-137 *)
  | A_on_match_nitems => (T_ON_MATCH, CGet T_ON_MATCH "nitems")   (* ast_on_match.c:106-111 *)
  | A_on_match_get_item => (T_ON_MATCH, CElem T_ON_MATCH false "nitems" "items" 1 0)   (* ast_on_match.c:114-124 *)
  | A_on_create_nitems => (T_ON_CREATE, CGet T_ON_CREATE "nitems")   (* ast_on_create.c:106-111 *)
  | A_on_create_get_item => (T_ON_CREATE, CElem T_ON_CREATE false "nitems" "items" 1 0)   (* ast_on_create.c:114-124 *)
  | A_create_is_unique => (T_CREATE, CGet T_CREATE "unique")   (* ast_create.c:84-89 *)
  | A_create_get_pattern => (T_CREATE, CGet T_CREATE "pattern")   (* ast_create.c:92-98 *)
  | A_set_nitems => (T_SET, CGet T_SET "nitems")   (* ast_set.c:105-110 *)
  | A_set_get_item => (T_SET, CElem T_SET false "nitems" "items" 1 0)   (* ast_set.c:113-123 *)
  | A_set_property_get_property => (T_SET_PROPERTY, CGet T_SET_PROPERTY "property")   (* ast_set_property.c:88-95 *)
  | A_set_property_get_expression => (T_SET_PROPERTY, CGet T_SET_PROPERTY "expression")   (* ast_set_property.c:98-105 *)
  | A_set_all_properties_get_identifier => (T_SET_ALL_PROPERTIES, CGet T_SET_ALL_PROPERTIES "identifier")   (* ast_set_all_properties.c:89-96 *)
  | A_set_all_properties_get_expression => (T_SET_ALL_PROPERTIES, CGet T_SET_ALL_PROPERTIES "expression")   (* ast_set_all_properties.c:99-106 *)
  | A_merge_properties_get_identifier => (T_MERGE_PROPERTIES, CGet T_MERGE_PROPERTIES "identifier")   (* ast_merge_properties.c:88-95 *)
  | A_merge_properties_get_expression => (T_MERGE_PROPERTIES, CGet T_MERGE_PROPERTIES "expression")   (* ast_merge_properties.c:98-105 *)
  | A_set_labels_get_identifier => (T_SET_LABELS, CGet T_SET_LABELS "identifier")   (* ast_set_labels.c:111-117 *)
  | A_set_labels_nlabels => (T_SET_LABELS, CGet T_SET_LABELS "nlabels")   (* ast_set_labels.c:120-125 *)
  | A_set_labels_get_label => (T_SET_LABELS, CElem T_SET_LABELS false "nlabels" "labels" 1 0)   (* ast_set_labels.c:128-138 *)
  | A_delete_has_detach => (T_DELETE, CGet T_DELETE "detach")   (* ast_delete.c:111-117 *)
  | A_delete_nexpressions => (T_DELETE, CGet T_DELETE "nexpressions")   (* ast_delete.c:120-126 *)
  | A_delete_get_expression => (T_DELETE, CElem T_DELETE false "nexpressions" "expressions" 1 0)   (* ast_delete.c:129-140 *)
  | A_remove_nitems => (T_REMOVE, CGet T_REMOVE "nitems")   (* ast_remove.c:105-110 *)
  | A_remove_get_item => (T_REMOVE, CElem T_REMOVE false "nitems" "items" 1 0)   (* ast_remove.c:113-123 *)
  | A_remove_labels_get_identifier => (T_REMOVE_LABELS, CGet T_REMOVE_LABELS "identifier")   (* ast_remove_labels.c:112-119 *)
  | A_remove_labels_nlabels => (T_REMOVE_LABELS, CGet T_REMOVE_LABELS "nlabels")   (* ast_remove_labels.c:122-128 *)
  | A_remove_labels_get_label => (T_REMOVE_LABELS, CElem T_REMOVE_LABELS false "nlabels" "labels" 1 0)   (* ast_remove_labels.c:131-142 *)
  | A_remove_property_get_property => (T_REMOVE_PROPERTY, CGet T_REMOVE_PROPERTY "property")   (* ast_remove_property.c:84-91 *)
  | A_foreach_get_identifier => (T_FOREACH, CGet T_FOREACH "identifier")   (* ast_foreach.c:116-123 *)
  | A_foreach_get_expression => (T_FOREACH, CGet T_FOREACH "expression")   (* ast_foreach.c:126-133 *)
  | A_foreach_nclauses => (T_FOREACH, CGet T_FOREACH "nclauses")   (* ast_foreach.c:136-142 *)
  | A_foreach_get_clause => (T_FOREACH, CElem T_FOREACH false "nclauses" "clauses" 1 0)   (* ast_foreach.c:145-156 *)
  | A_with_is_distinct => (T_WITH, CGet T_WITH "distinct")   (* ast_with.c:138-144 *)
  | A_with_has_include_existing => (T_WITH, CGet T_WITH "include_existing")   (* ast_with.c:147-153 *)
  | A_with_nprojections => (T_WITH, CGet T_WITH "nprojections")   (* ast_with.c:156-162 *)
  | A_with_get_projection => (T_WITH, CElem T_WITH false "nprojections" "projections" 1 0)   (* ast_with.c:165-176 *)
  | A_with_get_order_by => (T_WITH, CGet T_WITH "order_by")   (* ast_with.c:179-186 *)
  | A_with_get_skip => (T_WITH, CGet T_WITH "skip")   (* ast_with.c:189-196 *)
  | A_with_get_limit => (T_WITH, CGet T_WITH "limit")   (* ast_with.c:199-206 *)
  | A_with_get_predicate => (T_WITH, CGet T_WITH "predicate")   (* ast_with.c:209-216 *)
  | A_unwind_get_expression => (T_UNWIND, CGet T_UNWIND "expression")   (* ast_unwind.c:87-94 *)
  | A_unwind_get_alias => (T_UNWIND, CGet T_UNWIND "alias")   (* ast_unwind.c:97-104 *)
  | A_call_get_proc_name => (T_CALL, CGet T_CALL "proc_name")   (* ast_call.c:152-158 *)
  | A_call_narguments => (T_CALL, CGet T_CALL "nargs")   (* ast_call.c:161-166 *)
  | A_call_get_argument => (T_CALL, CElem T_CALL false "nargs" "args" 1 0)   (* ast_call.c:169-179 *)
  | A_call_nprojections => (T_CALL, CGet T_CALL "nprojections")   (* ast_call.c:182-187 *)
  | A_call_get_projection => (T_CALL, CElem T_CALL false "nprojections" "projections" 1 0)   (* ast_call.c:190-200 *)
  | A_call_get_predicate => (T_CALL, CGet T_CALL "predicate")   (* ast_call.c:203-210 *)
  | A_return_is_distinct => (T_RETURN, CGet T_RETURN "distinct")   (* ast_return.c:133-139 *)
  | A_return_has_include_existing => (T_RETURN, CGet T_RETURN "include_existing")   (* ast_return.c:142-148 *)
  | A_return_nprojections => (T_RETURN, CGet T_RETURN "nprojections")   (* ast_return.c:151-157 *)
  | A_return_get_projection => (T_RETURN, CElem T_RETURN false "nprojections" "projections" 1 0)   (* ast_return.c:160-171 *)
  | A_return_get_order_by => (T_RETURN, CGet T_RETURN "order_by")   (* ast_return.c:174-181 *)
  | A_return_get_skip => (T_RETURN, CGet T_RETURN "skip")   (* ast_return.c:184-191 *)
  | A_return_get_limit => (T_RETURN, CGet T_RETURN "limit")   (* ast_return.c:194-201 *)
  | A_projection_get_expression => (T_PROJECTION, CGet T_PROJECTION "expression")   (* ast_projection.c:83-89 *)
  | A_projection_get_alias => (T_PROJECTION, CGet T_PROJECTION "alias")   (* ast_projection.c:92-98 *)
  | A_order_by_nitems => (T_ORDER_BY, CGet T_ORDER_BY "nitems")   (* ast_order_by.c:101-106 *)
  | A_order_by_get_item => (T_ORDER_BY, CElem T_ORDER_BY false "nitems" "items" 1 0)   (* ast_order_by.c:109-119 *)
  | A_sort_item_get_expression => (T_SORT_ITEM, CGet T_SORT_ITEM "expression")   (* ast_sort_item.c:79-85 *)
  | A_sort_item_is_ascending => (T_SORT_ITEM, CGet T_SORT_ITEM "ascending")   (* ast_sort_item.c:88-93 *)
  | A_union_has_all => (T_UNION, CGet T_UNION "all")   (* ast_union.c:77-83 *)
  | A_unary_operator_get_operator => (T_UNARY_OPERATOR, CGet T_UNARY_OPERATOR "op")   (* ast_unary_operator.c:87-94 *)
  | A_unary_operator_get_argument => (T_UNARY_OPERATOR, CGet T_UNARY_OPERATOR "arg")   (* ast_unary_operator.c:97-104 *)
  | A_binary_operator_get_operator => (T_BINARY_OPERATOR, CGet T_BINARY_OPERATOR "op")   (* ast_binary_operator.c:92-99 *)
  | A_binary_operator_get_argument1 => (T_BINARY_OPERATOR, CGet T_BINARY_OPERATOR "arg1")   (* ast_binary_operator.c:102-109 *)
  | A_binary_operator_get_argument2 => (T_BINARY_OPERATOR, CGet T_BINARY_OPERATOR "arg2")   (* ast_binary_operator.c:112-119 *)
  | A_comparison_get_length => (T_COMPARISON, CGet T_COMPARISON "length")   (* ast_comparison.c:126-131 *)
  | A_comparison_get_operator => (T_COMPARISON, CElem T_COMPARISON false "length" "ops" 1 0)   (* ast_comparison.c:134-144 *)
  | A_comparison_get_argument => (T_COMPARISON, CElem T_COMPARISON true "length" "args" 1 0)   (* ast_comparison.c:147-157 *)
  | A_apply_operator_get_func_name => (T_APPLY_OPERATOR, CGet T_APPLY_OPERATOR "func_name")   (* ast_apply_operator.c:116-123 *)
  | A_apply_operator_get_distinct => (T_APPLY_OPERATOR, CGet T_APPLY_OPERATOR "distinct")   (* ast_apply_operator.c:126-132 *)
  | A_apply_operator_narguments => (T_APPLY_OPERATOR, CGet T_APPLY_OPERATOR "nargs")   (* ast_apply_operator.c:135-142 *)
  | A_apply_operator_get_argument => (T_APPLY_OPERATOR, CElem T_APPLY_OPERATOR false "nargs" "args" 1 0)   (* ast_apply_operator.c:145-157 *)
  | A_apply_all_operator_get_func_name => (T_APPLY_ALL_OPERATOR, CGet T_APPLY_ALL_OPERATOR "func_name")   (* ast_apply_all_operator.c:95-102 *)
  | A_apply_all_operator_get_distinct => (T_APPLY_ALL_OPERATOR, CGet T_APPLY_ALL_OPERATOR "distinct")   (* ast_apply_all_operator.c:105-111 *)
  | A_property_operator_get_expression => (T_PROPERTY_OPERATOR, CGet T_PROPERTY_OPERATOR "expression")   (* ast_property_operator.c:90-97 *)
  | A_property_operator_get_prop_name => (T_PROPERTY_OPERATOR, CGet T_PROPERTY_OPERATOR "prop_name")   (* ast_property_operator.c:100-107 *)
  | A_subscript_operator_get_expression => (T_SUBSCRIPT_OPERATOR, CGet T_SUBSCRIPT_OPERATOR "expression")   (* ast_subscript_operator.c:90-97 *)
  | A_subscript_operator_get_subscript => (T_SUBSCRIPT_OPERATOR, CGet T_SUBSCRIPT_OPERATOR "subscript")   (* ast_subscript_operator.c:100-107 *)
  | A_slice_operator_get_expression => (T_SLICE_OPERATOR, CGet T_SLICE_OPERATOR "expression")   (* ast_slice_operator.c:97-104 *)
  | A_slice_operator_get_start => (T_SLICE_OPERATOR, CGet T_SLICE_OPERATOR "start")   (* ast_slice_operator.c:107-114 *)
  | A_slice_operator_get_end => (T_SLICE_OPERATOR, CGet T_SLICE_OPERATOR "end")   (* ast_slice_operator.c:117-124 *)
  | A_map_projection_get_expression => (T_MAP_PROJECTION, CGet T_MAP_PROJECTION "expression")   (* ast_map_projection.c:106-113 *)
  | A_map_projection_nselectors => (T_MAP_PROJECTION, CGet T_MAP_PROJECTION "nselectors")   (* ast_map_projection.c:116-123 *)
  | A_map_projection_get_selector => (T_MAP_PROJECTION, CElem T_MAP_PROJECTION false "nselectors" "selectors" 1 0)   (* ast_map_projection.c:126-137 *)
  | A_map_projection_literal_get_prop_name => (T_MAP_PROJECTION_LITERAL, CGet T_MAP_PROJECTION_LITERAL "prop_name")   (* ast_map_projection_literal.c:89-96 *)
  | A_map_projection_literal_get_expression => (T_MAP_PROJECTION_LITERAL, CGet T_MAP_PROJECTION_LITERAL "expression")   (* ast_map_projection_literal.c:99-106 *)
  | A_map_projection_property_get_prop_name => (T_MAP_PROJECTION_PROPERTY, CGet T_MAP_PROJECTION_PROPERTY "prop_name")   (* ast_map_projection_property.c:85-92 *)
  | A_map_projection_identifier_get_identifier => (T_MAP_PROJECTION_IDENTIFIER, CGet T_MAP_PROJECTION_IDENTIFIER "identifier")   (* ast_map_projection_identifier.c:85-92 *)
  | A_labels_operator_get_expression => (T_LABELS_OPERATOR, CGet T_LABELS_OPERATOR "expression")   (* ast_labels_operator.c:113-120 *)
  | A_labels_operator_nlabels => (T_LABELS_OPERATOR, CGet T_LABELS_OPERATOR "nlabels")   (* ast_labels_operator.c:123-129 *)
  | A_labels_operator_get_label => (T_LABELS_OPERATOR, CElem T_LABELS_OPERATOR false "nlabels" "labels" 1 0)   (* ast_labels_operator.c:132-143 *)
  | A_list_comprehension_get_identifier => (T_LIST_COMPREHENSION, CVirtual V_get_identifier)   (* ast_list_comprehension.c:143-152 *)
  | A_list_comprehension_get_expression => (T_LIST_COMPREHENSION, CVirtual V_get_expression)   (* ast_list_comprehension.c:155-163 *)
  | A_list_comprehension_get_predicate => (T_LIST_COMPREHENSION, CVirtual V_get_predicate)   (* ast_list_comprehension.c:166-174 *)
  | A_list_comprehension_get_eval => (T_LIST_COMPREHENSION, CVirtual V_get_eval)   (* ast_list_comprehension.c:177-185 *)
  | A_pattern_comprehension_get_identifier => (T_PATTERN_COMPREHENSION, CGet T_PATTERN_COMPREHENSION "identifier")   (* ast_pattern_comprehension.c:104-111 *)
  | A_pattern_comprehension_get_pattern => (T_PATTERN_COMPREHENSION, CGet T_PATTERN_COMPREHENSION "pattern")   (* ast_pattern_comprehension.c:114-121 *)
  | A_pattern_comprehension_get_predicate => (T_PATTERN_COMPREHENSION, CGet T_PATTERN_COMPREHENSION "predicate")   (* ast_pattern_comprehension.c:124-131 *)
  | A_pattern_comprehension_get_eval => (T_PATTERN_COMPREHENSION, CGet T_PATTERN_COMPREHENSION "eval")   (* ast_pattern_comprehension.c:134-141 *)
  | A_reduce_get_accumulator => (T_REDUCE, CGet T_REDUCE "accumulator")   (* ast_reduce.c:102-108 *)
  | A_reduce_get_init => (T_REDUCE, CGet T_REDUCE "init")   (* ast_reduce.c:111-117 *)
  | A_reduce_get_identifier => (T_REDUCE, CGet T_REDUCE "identifier")   (* ast_reduce.c:120-126 *)
  | A_reduce_get_expression => (T_REDUCE, CGet T_REDUCE "expression")   (* ast_reduce.c:129-135 *)
  | A_reduce_get_eval => (T_REDUCE, CGet T_REDUCE "eval")   (* ast_reduce.c:138-144 *)
  | A_case_get_expression => (T_CASE, CGet T_CASE "expression")   (* ast_case.c:121-128 *)
  | A_case_nalternatives => (T_CASE, CGet T_CASE "nalternatives")   (* ast_case.c:131-137 *)
  | A_case_get_predicate => (T_CASE, CElem T_CASE false "nalternatives" "alternatives" 2 0)   (* ast_case.c:140-151 *)
  | A_case_get_value => (T_CASE, CElem T_CASE false "nalternatives" "alternatives" 2 1)   (* ast_case.c:154-165 *)
  | A_case_get_default => (T_CASE, CGet T_CASE "deflt")   (* ast_case.c:168-175 *)
  | A_collection_length => (T_COLLECTION, CGet T_COLLECTION "nelements")   (* ast_collection.c:100-106 *)
  | A_collection_get => (T_COLLECTION, CElem T_COLLECTION false "nelements" "elements" 1 0)   (* ast_collection.c:109-121 *)
  | A_map_nentries => (T_MAP, CGet T_MAP "nentries")   (* ast_map.c:144-149 *)
  | A_map_get_key => (T_MAP, CElem T_MAP false "nentries" "pairs" 2 0)   (* ast_map.c:152-162 *)
  | A_map_get_value => (T_MAP, CElem T_MAP false "nentries" "pairs" 2 1)   (* ast_map.c:165-175 *)
  | A_identifier_get_name => (T_IDENTIFIER, CGet T_IDENTIFIER "p")   (* ast_identifier.c:76-81 *)
  | A_parameter_get_name => (T_PARAMETER, CGet T_PARAMETER "p")   (* ast_parameter.c:76-81 *)
  | A_string_get_value => (T_STRING, CGet T_STRING "p")   (* ast_string.c:76-81 *)
  | A_integer_get_valuestr => (T_INTEGER, CGet T_INTEGER "p")   (* ast_integer.c:76-81 *)
  | A_float_get_valuestr => (T_FLOAT, CGet T_FLOAT "p")   (* ast_float.c:76-81 *)
  | A_label_get_name => (T_LABEL, CGet T_LABEL "p")   (* ast_label.c:71-76 *)
  | A_reltype_get_name => (T_RELTYPE, CGet T_RELTYPE "p")   (* ast_reltype.c:71-76 *)
  | A_prop_name_get_value => (T_PROP_NAME, CGet T_PROP_NAME "p")   (* ast_prop_name.c:71-76 *)
  | A_function_name_get_value => (T_FUNCTION_NAME, CGet T_FUNCTION_NAME "p")   (* ast_function_name.c:72-78 *)
  | A_index_name_get_value => (T_INDEX_NAME, CGet T_INDEX_NAME "p")   (* ast_index_name.c:71-76 *)
  | A_proc_name_get_value => (T_PROC_NAME, CGet T_PROC_NAME "p")   (* ast_proc_name.c:71-76 *)
  | A_pattern_npaths => (T_PATTERN, CGet T_PATTERN "npaths")   (* ast_pattern.c:100-105 *)
  | A_pattern_get_path => (T_PATTERN, CElem T_PATTERN false "npaths" "paths" 1 0)   (* ast_pattern.c:108-118 *)
  | A_named_path_get_identifier => (T_NAMED_PATH, CGet T_NAMED_PATH "identifier")   (* ast_named_path.c:96-105 *)
  | A_named_path_get_path => (T_NAMED_PATH, CGet T_NAMED_PATH "path")   (* ast_named_path.c:108-117 *)
  | A_shortest_path_is_single => (T_SHORTEST_PATH, CGet T_SHORTEST_PATH "single")   (* ast_shortest_path.c:94-102 *)
  | A_shortest_path_get_path => (T_SHORTEST_PATH, CGet T_SHORTEST_PATH "path")   (* ast_shortest_path.c:105-114 *)
  | A_pattern_path_nelements => (T_PATTERN_PATH, CVirtual V_nelements)   (* ast_pattern_path.c:137-144 *)
  | A_pattern_path_get_element => (T_PATTERN_PATH, CVirtual V_get_element)   (* ast_pattern_path.c:147-155 *)
  | A_node_pattern_get_identifier => (T_NODE_PATTERN, CGet T_NODE_PATTERN "identifier")   (* ast_node_pattern.c:115-122 *)
  | A_node_pattern_nlabels => (T_NODE_PATTERN, CGet T_NODE_PATTERN "nlabels")   (* ast_node_pattern.c:125-131 *)
  | A_node_pattern_get_label => (T_NODE_PATTERN, CElem T_NODE_PATTERN false "nlabels" "labels" 1 0)   (* ast_node_pattern.c:134-145 *)
  | A_node_pattern_get_properties => (T_NODE_PATTERN, CGet T_NODE_PATTERN "properties")   (* ast_node_pattern.c:148-155 *)
  | A_rel_pattern_get_direction => (T_REL_PATTERN, CGet T_REL_PATTERN "direction")   (* ast_rel_pattern.c:125-132 *)
  | A_rel_pattern_get_identifier => (T_REL_PATTERN, CGet T_REL_PATTERN "identifier")   (* ast_rel_pattern.c:135-142 *)
  | A_rel_pattern_nreltypes => (T_REL_PATTERN, CGet T_REL_PATTERN "nreltypes")   (* ast_rel_pattern.c:145-151 *)
  | A_rel_pattern_get_reltype => (T_REL_PATTERN, CElem T_REL_PATTERN false "nreltypes" "reltypes" 1 0)   (* ast_rel_pattern.c:154-165 *)
  | A_rel_pattern_get_varlength => (T_REL_PATTERN, CGet T_REL_PATTERN "varlength")   (* ast_rel_pattern.c:168-175 *)
  | A_rel_pattern_get_properties => (T_REL_PATTERN, CGet T_REL_PATTERN "properties")   (* ast_rel_pattern.c:178-185 *)
  | A_range_get_start => (T_RANGE, CGet T_RANGE "start")   (* ast_range.c:83-89 *)
  | A_range_get_end => (T_RANGE, CGet T_RANGE "end")   (* ast_range.c:92-98 *)
  | A_command_get_name => (T_COMMAND, CGet T_COMMAND "name")   (* ast_command.c:104-110 *)
  | A_command_narguments => (T_COMMAND, CGet T_COMMAND "nargs")   (* ast_command.c:113-118 *)
  | A_command_get_argument => (T_COMMAND, CElem T_COMMAND false "nargs" "args" 1 0)   (* ast_command.c:121-131 *)
  | A_line_comment_get_value => (T_LINE_COMMENT, CGet T_LINE_COMMENT "p")   (* ast_line_comment.c:76-81 *)
  | A_block_comment_get_value => (T_BLOCK_COMMENT, CGet T_BLOCK_COMMENT "p")   (* ast_block_comment.c:76-81 *)
  | A_error_get_value => (T_ERROR, CGet T_ERROR "p")   (* ast_error.c:71-76 *)
  end.

(** REQUIRE_TYPE (astnode.h:67-72) before [k] *)
Definition require_type (n : node) (t : asttype) (k : aout) : aout :=
  match instanceof_ty (nty n) t with
  | Some true => k
  | Some false => AAbort
  | None => AUndef
  end.

(** A call through the virtual table of [n].  The functions of paths that
    forward call the accessor of the path in the member, which is a child. *)
Fixpoint virt (n : node) (v : vfun) (i : nat) : aout :=
  match n with
  | Node id ty rng flds kids ord =>
      match vtable ty v with
      | None => AUndef
      | Some VNull => ARet (RNode None)
      | Some (VGet o m) => get (Node id ty rng flds kids ord) o m
      | Some (VElem o incl cnt m mul add) => elem (Node id ty rng flds kids ord) o incl cnt m mul add i
      | Some (VForward o m v') =>
          match member (Node id ty rng flds kids ord) o m with
          | Some (MNode (Some p)) =>
              (fix go (ks : list node) : aout :=
                 match ks with
                 | [] => AUndef
                 | k :: ks => if Nat.eqb (nid k) p then require_type k T_PATTERN_PATH (virt k v' i) else go ks
                 end) kids
          | _ => AUndef
          end
      end
  end.

(** The accessor [a] on the node [n]; [i] is the index, for those that take one *)
Definition access (a : accessor) (n : node) (i : nat) : aout :=
  require_type n (fst (acc_body a))
    match snd (acc_body a) with
    | CGet o m => get n o m
    | CElem o incl cnt m mul add => elem n o incl cnt m mul add i
    | CVirtual v => virt n v i
    end.

(** ** cypher_ast_map *)

(** ast_map.c:76-95: keys and values are stored alternately; the node is the one
    that cypher_ast_pair_map makes of the pairs.  [None]: a REQUIRE fails. *)
Fixpoint interleave (ks vs : list node) : list node :=
  match ks, vs with
  | k :: ks, v :: vs => k :: v :: interleave ks vs
  | _, _ => []
  end.

Definition construct_map (id : nat) (ks vs : list node) (kids : list node) (rng : range) : option node :=
  if Nat.eqb (List.length ks) (List.length vs) && all_a ks T_PROP_NAME && all_a vs T_EXPRESSION
  then Some (Node id T_MAP rng [FList (map nid (interleave ks vs))] kids 0)
  else None.
