(** * What the API documentation promises about AST nodes

    The two tables are transcribed from the comments of the node constructors in
    lib/src/cypher-parser.h.in, not from the code (the line of each prototype is
    cited). *)
From Coq Require Import List Bool Arith Ascii String.
From Verif Require Import Peg QuickModel CypherSyntax AstTypes AstModel CypherSpec.
Import ListNotations.

(** ** The type hierarchy *)

(** the types "below" a type: itself, and those with a parent below it *)
Inductive descends : asttype -> asttype -> Prop :=
| d_self : forall t, descends t t
| d_parent : forall t p u, In p (vt_parents t) -> descends p u -> descends t u.

(** "The node will also be an instance of ..."  (The documentation writes
    CYPHER_AST_CLAUSE, which is not declared, for CYPHER_AST_QUERY_CLAUSE.) *)
Definition doc_also (t : asttype) : list asttype :=
  match t with
  | T_CYPHER_OPTION => [T_STATEMENT_OPTION]   (* cypher-parser.h.in:582 *)
  | T_EXPLAIN_OPTION => [T_STATEMENT_OPTION]   (* cypher-parser.h.in:679 *)
  | T_PROFILE_OPTION => [T_STATEMENT_OPTION]   (* cypher-parser.h.in:691 *)
  | T_CREATE_NODE_PROPS_INDEX => [T_SCHEMA_COMMAND]   (* cypher-parser.h.in:708 *)
  | T_DROP_NODE_PROPS_INDEX => [T_SCHEMA_COMMAND]   (* cypher-parser.h.in:767 *)
  | T_CREATE_NODE_PROP_CONSTRAINT => [T_SCHEMA_COMMAND]   (* cypher-parser.h.in:828 *)
  | T_DROP_NODE_PROP_CONSTRAINT => [T_SCHEMA_COMMAND]   (* cypher-parser.h.in:901 *)
  | T_CREATE_REL_PROP_CONSTRAINT => [T_SCHEMA_COMMAND]   (* cypher-parser.h.in:974 *)
  | T_DROP_REL_PROP_CONSTRAINT => [T_SCHEMA_COMMAND]   (* cypher-parser.h.in:1047 *)
  | T_USING_PERIODIC_COMMIT => [T_QUERY_OPTION]   (* cypher-parser.h.in:1190 *)
  | T_LOAD_CSV => [T_QUERY_CLAUSE]   (* cypher-parser.h.in:1224 *)
  | T_START => [T_QUERY_CLAUSE]   (* cypher-parser.h.in:1297 *)
  | T_NODE_INDEX_LOOKUP => [T_START_POINT]   (* cypher-parser.h.in:1357 *)
  | T_NODE_INDEX_QUERY => [T_START_POINT]   (* cypher-parser.h.in:1430 *)
  | T_NODE_ID_LOOKUP => [T_START_POINT]   (* cypher-parser.h.in:1489 *)
  | T_ALL_NODES_SCAN => [T_START_POINT]   (* cypher-parser.h.in:1546 *)
  | T_REL_INDEX_LOOKUP => [T_START_POINT]   (* cypher-parser.h.in:1579 *)
  | T_REL_INDEX_QUERY => [T_START_POINT]   (* cypher-parser.h.in:1653 *)
  | T_REL_ID_LOOKUP => [T_START_POINT]   (* cypher-parser.h.in:1712 *)
  | T_ALL_RELS_SCAN => [T_START_POINT]   (* cypher-parser.h.in:1770 *)
  | T_MATCH => [T_QUERY_CLAUSE]   (* cypher-parser.h.in:1805 *)
  | T_USING_INDEX => [T_MATCH_HINT]   (* cypher-parser.h.in:1891 *)
  | T_USING_JOIN => [T_MATCH_HINT]   (* cypher-parser.h.in:1950 *)
  | T_USING_SCAN => [T_MATCH_HINT]   (* cypher-parser.h.in:1995 *)
  | T_MERGE => [T_QUERY_CLAUSE]   (* cypher-parser.h.in:2040 *)
  | T_ON_MATCH => [T_MERGE_ACTION]   (* cypher-parser.h.in:2098 *)
  | T_ON_CREATE => [T_MERGE_ACTION]   (* cypher-parser.h.in:2142 *)
  | T_CREATE => [T_QUERY_CLAUSE]   (* cypher-parser.h.in:2186 *)
  | T_SET => [T_QUERY_CLAUSE]   (* cypher-parser.h.in:2229 *)
  | T_SET_PROPERTY => [T_SET_ITEM]   (* cypher-parser.h.in:2273 *)
  | T_SET_ALL_PROPERTIES => [T_SET_ITEM]   (* cypher-parser.h.in:2317 *)
  | T_MERGE_PROPERTIES => [T_SET_ITEM]   (* cypher-parser.h.in:2362 *)
  | T_SET_LABELS => [T_SET_ITEM]   (* cypher-parser.h.in:2409 *)
  | T_DELETE => [T_QUERY_CLAUSE]   (* cypher-parser.h.in:2469 *)
  | T_REMOVE => [T_QUERY_CLAUSE]   (* cypher-parser.h.in:2526 *)
  | T_REMOVE_LABELS => [T_REMOVE_ITEM]   (* cypher-parser.h.in:2571 *)
  | T_REMOVE_PROPERTY => [T_REMOVE_ITEM]   (* cypher-parser.h.in:2628 *)
  | T_FOREACH => [T_QUERY_CLAUSE]   (* cypher-parser.h.in:2661 *)
  | T_WITH => [T_QUERY_CLAUSE]   (* cypher-parser.h.in:2740 *)
  | T_UNWIND => [T_QUERY_CLAUSE]   (* cypher-parser.h.in:2863 *)
  | T_CALL => [T_QUERY_CLAUSE]   (* cypher-parser.h.in:2912 *)
  | T_RETURN => [T_QUERY_CLAUSE]   (* cypher-parser.h.in:3018 *)
  | T_UNION => [T_QUERY_CLAUSE]   (* cypher-parser.h.in:3251 *)
  | T_UNARY_OPERATOR => [T_EXPRESSION]   (* cypher-parser.h.in:3281 *)
  | T_BINARY_OPERATOR => [T_EXPRESSION]   (* cypher-parser.h.in:3328 *)
  | T_COMPARISON => [T_EXPRESSION]   (* cypher-parser.h.in:3389 *)
  | T_APPLY_OPERATOR => [T_EXPRESSION]   (* cypher-parser.h.in:3451 *)
  | T_APPLY_ALL_OPERATOR => [T_EXPRESSION]   (* cypher-parser.h.in:3521 *)
  | T_PROPERTY_OPERATOR => [T_EXPRESSION]   (* cypher-parser.h.in:3565 *)
  | T_SUBSCRIPT_OPERATOR => [T_EXPRESSION]   (* cypher-parser.h.in:3610 *)
  | T_SLICE_OPERATOR => [T_EXPRESSION]   (* cypher-parser.h.in:3656 *)
  | T_LABELS_OPERATOR => [T_EXPRESSION]   (* cypher-parser.h.in:3899 *)
  | T_LIST_COMPREHENSION => [T_EXPRESSION]   (* cypher-parser.h.in:3959 *)
  | T_PATTERN_COMPREHENSION => [T_EXPRESSION]   (* cypher-parser.h.in:4153 *)
  | T_CASE => [T_EXPRESSION]   (* cypher-parser.h.in:4317 *)
  | T_FILTER => [T_LIST_COMPREHENSION]   (* cypher-parser.h.in:4032 *)
  | T_EXTRACT => [T_LIST_COMPREHENSION]   (* cypher-parser.h.in:4052 *)
  | T_REDUCE => [T_EXPRESSION]   (* cypher-parser.h.in:4229 *)
  | T_ALL => [T_LIST_COMPREHENSION]   (* cypher-parser.h.in:4072 *)
  | T_ANY => [T_LIST_COMPREHENSION]   (* cypher-parser.h.in:4092 *)
  | T_SINGLE => [T_LIST_COMPREHENSION]   (* cypher-parser.h.in:4112 *)
  | T_NONE => [T_LIST_COMPREHENSION]   (* cypher-parser.h.in:4132 *)
  | T_COLLECTION => [T_EXPRESSION]   (* cypher-parser.h.in:4402 *)
  | T_MAP => [T_EXPRESSION]   (* cypher-parser.h.in:4469 *)
  | T_IDENTIFIER => [T_EXPRESSION]   (* cypher-parser.h.in:4525 *)
  | T_PARAMETER => [T_EXPRESSION]   (* cypher-parser.h.in:4552 *)
  | T_STRING => [T_EXPRESSION]   (* cypher-parser.h.in:4579 *)
  | T_INTEGER => [T_EXPRESSION]   (* cypher-parser.h.in:4606 *)
  | T_FLOAT => [T_EXPRESSION]   (* cypher-parser.h.in:4633 *)
  | T_TRUE => [T_EXPRESSION]   (* cypher-parser.h.in:4658 *)
  | T_FALSE => [T_EXPRESSION]   (* cypher-parser.h.in:4670 *)
  | T_NULL => [T_EXPRESSION]   (* cypher-parser.h.in:4682 *)
  | T_NAMED_PATH => [T_PATTERN_PATH]   (* cypher-parser.h.in:4891 *)
  | T_SHORTEST_PATH => [T_PATTERN_PATH; T_EXPRESSION]   (* cypher-parser.h.in:4936 *)
  | T_LINE_COMMENT => [T_COMMENT]   (* cypher-parser.h.in:5301 *)
  | T_BLOCK_COMMENT => [T_COMMENT]   (* cypher-parser.h.in:5328 *)
  | T_MAP_PROJECTION => [T_EXPRESSION]   (* cypher-parser.h.in:3716 *)
  | T_MAP_PROJECTION_LITERAL => [T_MAP_PROJECTION_SELECTOR]   (* cypher-parser.h.in:3775 *)
  | T_MAP_PROJECTION_PROPERTY => [T_MAP_PROJECTION_SELECTOR]   (* cypher-parser.h.in:3819 *)
  | T_MAP_PROJECTION_IDENTIFIER => [T_MAP_PROJECTION_SELECTOR]   (* cypher-parser.h.in:3850 *)
  | T_MAP_PROJECTION_ALL_PROPERTIES => [T_MAP_PROJECTION_SELECTOR]   (* cypher-parser.h.in:3880 *)
  | _ => []
  end.

(** ** Constructor parameters *)

Inductive dparam : Set :=
| DOne (ts : list asttype)          (* a node of one of these types *)
| DOpt (ts : list asttype)          (* the same, or null *)
| DAll (ts : list asttype)          (* an array of nodes of these types *)
| DList                             (* an array of nodes *)
| DPairs (t1 t2 : asttype)          (* an array of pairs *)
| DAlternate (t1 t2 : asttype)      (* alternating types, an odd number of them *)
| DOp                               (* an operator *)
| DOps                              (* an array of operators *)
| DFree.                            (* a flag, direction or string *)

(** The parameters of the constructor of each type, but for array lengths,
    children and range.  (The documentation of cypher_ast_drop_node_props_index
    describes one property name; its prototype takes an array.) *)
Definition doc_params (t : asttype) : option (list dparam) :=
  match t with
  | T_STATEMENT => Some [DAll [T_STATEMENT_OPTION]; DOne [T_QUERY; T_SCHEMA_COMMAND]]   (* cypher-parser.h.in:521 options, body *)
  | T_CYPHER_OPTION => Some [DOpt [T_STRING]; DAll [T_CYPHER_OPTION_PARAM]]   (* cypher-parser.h.in:582 version, params *)
  | T_CYPHER_OPTION_PARAM => Some [DOne [T_STRING]; DOne [T_STRING]]   (* cypher-parser.h.in:639 name, value *)
  | T_EXPLAIN_OPTION => Some []   (* cypher-parser.h.in:679  *)
  | T_PROFILE_OPTION => Some []   (* cypher-parser.h.in:691  *)
  | T_CREATE_NODE_PROPS_INDEX => Some [DOne [T_LABEL]; DAll [T_PROP_NAME]]   (* cypher-parser.h.in:708 label, prop_names *)
  | T_DROP_NODE_PROPS_INDEX => Some [DOne [T_LABEL]; DAll [T_PROP_NAME]]   (* cypher-parser.h.in:767 label, prop_names *)
  | T_CREATE_NODE_PROP_CONSTRAINT => Some [DOne [T_IDENTIFIER]; DOne [T_LABEL]; DOne [T_EXPRESSION]; DFree]   (* cypher-parser.h.in:828 identifier, label, expression, unique *)
  | T_DROP_NODE_PROP_CONSTRAINT => Some [DOne [T_IDENTIFIER]; DOne [T_LABEL]; DOne [T_EXPRESSION]; DFree]   (* cypher-parser.h.in:901 identifier, label, expression, unique *)
  | T_CREATE_REL_PROP_CONSTRAINT => Some [DOne [T_IDENTIFIER]; DOne [T_LABEL]; DOne [T_EXPRESSION]; DFree]   (* cypher-parser.h.in:974 identifier, label, expression, unique *)
  | T_DROP_REL_PROP_CONSTRAINT => Some [DOne [T_IDENTIFIER]; DOne [T_LABEL]; DOne [T_EXPRESSION]; DFree]   (* cypher-parser.h.in:1047 identifier, label, expression, unique *)
  | T_QUERY => Some [DAll [T_QUERY_OPTION]; DAll [T_QUERY_CLAUSE]]   (* cypher-parser.h.in:1120 options, clauses *)
  | T_USING_PERIODIC_COMMIT => Some [DOpt [T_INTEGER]]   (* cypher-parser.h.in:1190 limit *)
  | T_LOAD_CSV => Some [DFree; DOne [T_EXPRESSION]; DOne [T_IDENTIFIER]; DOpt [T_STRING]]   (* cypher-parser.h.in:1224 with_headers, url, identifier, field_terminator *)
  | T_START => Some [DAll [T_START_POINT]; DOpt [T_EXPRESSION]]   (* cypher-parser.h.in:1297 points, predicate *)
  | T_NODE_INDEX_LOOKUP => Some [DOne [T_IDENTIFIER]; DOne [T_INDEX_NAME]; DOne [T_PROP_NAME]; DOne [T_STRING; T_PARAMETER]]   (* cypher-parser.h.in:1357 identifier, index_name, prop_name, lookup *)
  | T_NODE_INDEX_QUERY => Some [DOne [T_IDENTIFIER]; DOne [T_INDEX_NAME]; DOne [T_STRING; T_PARAMETER]]   (* cypher-parser.h.in:1430 identifier, index_name, query *)
  | T_NODE_ID_LOOKUP => Some [DOne [T_IDENTIFIER]; DAll [T_INTEGER]]   (* cypher-parser.h.in:1489 identifier, ids *)
  | T_ALL_NODES_SCAN => Some [DOne [T_IDENTIFIER]]   (* cypher-parser.h.in:1546 identifier *)
  | T_REL_INDEX_LOOKUP => Some [DOne [T_IDENTIFIER]; DOne [T_INDEX_NAME]; DOne [T_PROP_NAME]; DOne [T_STRING; T_PARAMETER]]   (* cypher-parser.h.in:1579 identifier, index_name, prop_name, lookup *)
  | T_REL_INDEX_QUERY => Some [DOne [T_IDENTIFIER]; DOne [T_INDEX_NAME]; DOne [T_STRING; T_PARAMETER]]   (* cypher-parser.h.in:1653 identifier, index_name, query *)
  | T_REL_ID_LOOKUP => Some [DOne [T_IDENTIFIER]; DAll [T_INTEGER]]   (* cypher-parser.h.in:1712 identifier, ids *)
  | T_ALL_RELS_SCAN => Some [DOne [T_IDENTIFIER]]   (* cypher-parser.h.in:1770 identifier *)
  | T_MATCH => Some [DFree; DOne [T_PATTERN]; DAll [T_MATCH_HINT]; DOpt [T_EXPRESSION]]   (* cypher-parser.h.in:1805 optional, pattern, hints, predicate *)
  | T_USING_INDEX => Some [DOne [T_IDENTIFIER]; DOne [T_LABEL]; DOne [T_PROP_NAME]]   (* cypher-parser.h.in:1891 identifier, label, prop_name *)
  | T_USING_JOIN => Some [DAll [T_IDENTIFIER]]   (* cypher-parser.h.in:1950 identifiers *)
  | T_USING_SCAN => Some [DOne [T_IDENTIFIER]; DOne [T_LABEL]]   (* cypher-parser.h.in:1995 identifier, label *)
  | T_MERGE => Some [DOne [T_PATTERN_PATH]; DAll [T_MERGE_ACTION]]   (* cypher-parser.h.in:2040 path, actions *)
  | T_ON_MATCH => Some [DAll [T_SET_ITEM]]   (* cypher-parser.h.in:2098 items *)
  | T_ON_CREATE => Some [DAll [T_SET_ITEM]]   (* cypher-parser.h.in:2142 items *)
  | T_CREATE => Some [DFree; DOne [T_PATTERN]]   (* cypher-parser.h.in:2186 unique, pattern *)
  | T_SET => Some [DAll [T_SET_ITEM]]   (* cypher-parser.h.in:2229 items *)
  | T_SET_PROPERTY => Some [DOne [T_PROPERTY_OPERATOR]; DOne [T_EXPRESSION]]   (* cypher-parser.h.in:2273 property, expression *)
  | T_SET_ALL_PROPERTIES => Some [DOne [T_IDENTIFIER]; DOne [T_EXPRESSION]]   (* cypher-parser.h.in:2317 identifier, expression *)
  | T_MERGE_PROPERTIES => Some [DOne [T_IDENTIFIER]; DOne [T_EXPRESSION]]   (* cypher-parser.h.in:2362 identifier, expression *)
  | T_SET_LABELS => Some [DOne [T_IDENTIFIER]; DAll [T_LABEL]]   (* cypher-parser.h.in:2409 identifier, labels *)
  | T_DELETE => Some [DFree; DAll [T_EXPRESSION]]   (* cypher-parser.h.in:2469 detach, expressions *)
  | T_REMOVE => Some [DAll [T_REMOVE_ITEM]]   (* cypher-parser.h.in:2526 items *)
  | T_REMOVE_LABELS => Some [DOne [T_IDENTIFIER]; DAll [T_LABEL]]   (* cypher-parser.h.in:2571 identifier, labels *)
  | T_REMOVE_PROPERTY => Some [DOne [T_PROPERTY_OPERATOR]]   (* cypher-parser.h.in:2628 property *)
  | T_FOREACH => Some [DOne [T_IDENTIFIER]; DOne [T_EXPRESSION]; DAll [T_QUERY_CLAUSE]]   (* cypher-parser.h.in:2661 identifier, expression, clauses *)
  | T_WITH => Some [DFree; DFree; DAll [T_PROJECTION]; DOpt [T_ORDER_BY]; DOpt [T_INTEGER]; DOpt [T_INTEGER]; DOpt [T_EXPRESSION]]   (* cypher-parser.h.in:2740 distinct, include_existing, projections, order_by, skip, limit, predicate *)
  | T_UNWIND => Some [DOne [T_EXPRESSION]; DOne [T_IDENTIFIER]]   (* cypher-parser.h.in:2863 expression, alias *)
  | T_CALL => Some [DOne [T_PROC_NAME]; DAll [T_EXPRESSION]; DAll [T_PROJECTION]; DOpt [T_EXPRESSION]]   (* cypher-parser.h.in:2912 proc_name, args, projections, predicate *)
  | T_RETURN => Some [DFree; DFree; DAll [T_PROJECTION]; DOpt [T_ORDER_BY]; DOpt [T_INTEGER]; DOpt [T_INTEGER]]   (* cypher-parser.h.in:3018 distinct, include_existing, projections, order_by, skip, limit *)
  | T_PROJECTION => Some [DOne [T_EXPRESSION]; DOpt [T_IDENTIFIER]]   (* cypher-parser.h.in:3125 expression, alias *)
  | T_ORDER_BY => Some [DAll [T_SORT_ITEM]]   (* cypher-parser.h.in:3167 items *)
  | T_SORT_ITEM => Some [DOne [T_EXPRESSION]; DFree]   (* cypher-parser.h.in:3209 expression, ascending *)
  | T_UNION => Some [DFree]   (* cypher-parser.h.in:3251 all *)
  | T_UNARY_OPERATOR => Some [DOp; DOne [T_EXPRESSION]]   (* cypher-parser.h.in:3281 op, arg *)
  | T_BINARY_OPERATOR => Some [DOp; DOne [T_EXPRESSION]; DOne [T_EXPRESSION]]   (* cypher-parser.h.in:3328 op, arg1, arg2 *)
  | T_COMPARISON => Some [DOps; DAll [T_EXPRESSION]]   (* cypher-parser.h.in:3389 ops, args *)
  | T_APPLY_OPERATOR => Some [DOne [T_FUNCTION_NAME]; DFree; DAll [T_EXPRESSION]]   (* cypher-parser.h.in:3451 func_name, distinct, args *)
  | T_APPLY_ALL_OPERATOR => Some [DOne [T_FUNCTION_NAME]; DFree]   (* cypher-parser.h.in:3521 func_name, distinct *)
  | T_PROPERTY_OPERATOR => Some [DOne [T_EXPRESSION]; DOne [T_PROP_NAME]]   (* cypher-parser.h.in:3565 expression, prop_name *)
  | T_SUBSCRIPT_OPERATOR => Some [DOne [T_EXPRESSION]; DOne [T_EXPRESSION]]   (* cypher-parser.h.in:3610 expression, subscript *)
  | T_SLICE_OPERATOR => Some [DOne [T_EXPRESSION]; DOpt [T_EXPRESSION]; DOpt [T_EXPRESSION]]   (* cypher-parser.h.in:3656 expression, start, end *)
  | T_LABELS_OPERATOR => Some [DOne [T_EXPRESSION]; DAll [T_LABEL]]   (* cypher-parser.h.in:3899 expression, labels *)
  | T_LIST_COMPREHENSION => Some [DOne [T_IDENTIFIER]; DOne [T_EXPRESSION]; DOpt [T_EXPRESSION]; DOpt [T_EXPRESSION]]   (* cypher-parser.h.in:3959 identifier, expression, predicate, eval *)
  | T_PATTERN_COMPREHENSION => Some [DOpt [T_IDENTIFIER]; DOne [T_PATTERN]; DOpt [T_EXPRESSION]; DOne [T_EXPRESSION]]   (* cypher-parser.h.in:4153 identifier, pattern, predicate, eval *)
  | T_CASE => Some [DOne [T_EXPRESSION]; DAll [T_EXPRESSION]; DOpt [T_EXPRESSION]]   (* cypher-parser.h.in:4317 expression, alternatives, deflt *)
  | T_FILTER => Some [DOne [T_IDENTIFIER]; DOne [T_EXPRESSION]; DOpt [T_EXPRESSION]]   (* cypher-parser.h.in:4032 identifier, expression, predicate *)
  | T_EXTRACT => Some [DOne [T_IDENTIFIER]; DOne [T_EXPRESSION]; DOpt [T_EXPRESSION]]   (* cypher-parser.h.in:4052 identifier, expression, eval *)
  | T_REDUCE => Some [DOne [T_IDENTIFIER]; DOne [T_EXPRESSION]; DOne [T_IDENTIFIER]; DOne [T_EXPRESSION]; DOpt [T_EXPRESSION]]   (* cypher-parser.h.in:4229 accumulator, init, identifier, expression, eval *)
  | T_ALL => Some [DOne [T_IDENTIFIER]; DOne [T_EXPRESSION]; DOpt [T_EXPRESSION]]   (* cypher-parser.h.in:4072 identifier, expression, predicate *)
  | T_ANY => Some [DOne [T_IDENTIFIER]; DOne [T_EXPRESSION]; DOpt [T_EXPRESSION]]   (* cypher-parser.h.in:4092 identifier, expression, predicate *)
  | T_SINGLE => Some [DOne [T_IDENTIFIER]; DOne [T_EXPRESSION]; DOpt [T_EXPRESSION]]   (* cypher-parser.h.in:4112 identifier, expression, predicate *)
  | T_NONE => Some [DOne [T_IDENTIFIER]; DOne [T_EXPRESSION]; DOpt [T_EXPRESSION]]   (* cypher-parser.h.in:4132 identifier, expression, predicate *)
  | T_COLLECTION => Some [DList]   (* cypher-parser.h.in:4402 elements *)
  | T_MAP => Some [DPairs T_PROP_NAME T_EXPRESSION]   (* cypher-parser.h.in:4469 pairs *)
  | T_IDENTIFIER => Some [DFree]   (* cypher-parser.h.in:4525 s *)
  | T_PARAMETER => Some [DFree]   (* cypher-parser.h.in:4552 s *)
  | T_STRING => Some [DFree]   (* cypher-parser.h.in:4579 s *)
  | T_INTEGER => Some [DFree]   (* cypher-parser.h.in:4606 s *)
  | T_FLOAT => Some [DFree]   (* cypher-parser.h.in:4633 s *)
  | T_TRUE => Some []   (* cypher-parser.h.in:4658  *)
  | T_FALSE => Some []   (* cypher-parser.h.in:4670  *)
  | T_NULL => Some []   (* cypher-parser.h.in:4682  *)
  | T_LABEL => Some [DFree]   (* cypher-parser.h.in:4694 s *)
  | T_RELTYPE => Some [DFree]   (* cypher-parser.h.in:4719 s *)
  | T_PROP_NAME => Some [DFree]   (* cypher-parser.h.in:4744 s *)
  | T_FUNCTION_NAME => Some [DFree]   (* cypher-parser.h.in:4769 s *)
  | T_INDEX_NAME => Some [DFree]   (* cypher-parser.h.in:4794 s *)
  | T_PROC_NAME => Some [DFree]   (* cypher-parser.h.in:4819 s *)
  | T_PATTERN => Some [DAll [T_PATTERN_PATH]]   (* cypher-parser.h.in:4847 paths *)
  | T_NAMED_PATH => Some [DOne [T_IDENTIFIER]; DOne [T_PATTERN_PATH]]   (* cypher-parser.h.in:4891 identifier, path *)
  | T_SHORTEST_PATH => Some [DFree; DOne [T_PATTERN_PATH]]   (* cypher-parser.h.in:4936 single, path *)
  | T_PATTERN_PATH => Some [DAlternate T_NODE_PATTERN T_REL_PATTERN]   (* cypher-parser.h.in:4978 elements *)
  | T_NODE_PATTERN => Some [DOpt [T_IDENTIFIER]; DAll [T_LABEL]; DOpt [T_MAP; T_PARAMETER]]   (* cypher-parser.h.in:5027 identifier, labels, properties *)
  | T_REL_PATTERN => Some [DFree; DOpt [T_IDENTIFIER]; DAll [T_RELTYPE]; DOpt [T_MAP; T_PARAMETER]; DOpt [T_RANGE]]   (* cypher-parser.h.in:5102 direction, identifier, reltypes, properties, varlength *)
  | T_RANGE => Some [DOpt [T_INTEGER]; DOpt [T_INTEGER]]   (* cypher-parser.h.in:5199 start, end *)
  | T_COMMAND => Some [DOne [T_STRING]; DAll [T_STRING]]   (* cypher-parser.h.in:5242 name, args *)
  | T_LINE_COMMENT => Some [DFree]   (* cypher-parser.h.in:5301 s *)
  | T_BLOCK_COMMENT => Some [DFree]   (* cypher-parser.h.in:5328 s *)
  | T_ERROR => Some [DFree]   (* cypher-parser.h.in:5353 s *)
  | T_MAP_PROJECTION => Some [DOne [T_EXPRESSION]; DAll [T_MAP_PROJECTION_SELECTOR]]   (* cypher-parser.h.in:3716 expression, selectors *)
  | T_MAP_PROJECTION_LITERAL => Some [DOne [T_PROP_NAME]; DOne [T_EXPRESSION]]   (* cypher-parser.h.in:3775 prop_name, expression *)
  | T_MAP_PROJECTION_PROPERTY => Some [DOne [T_PROP_NAME]]   (* cypher-parser.h.in:3819 prop_name *)
  | T_MAP_PROJECTION_IDENTIFIER => Some [DOne [T_IDENTIFIER]]   (* cypher-parser.h.in:3850 identifier *)
  | T_MAP_PROJECTION_ALL_PROPERTIES => Some []   (* cypher-parser.h.in:3880  *)
  | _ => None
  end.

(** a node of one of these types *)
Definition typed (ts : list asttype) (x : node) : Prop := exists t, In t ts /\ descends (nty x) t.

(** one of the children (nodes are the same if they have the same address) *)
Definition child_of (kids : list node) (x : node) : Prop := exists k, In k kids /\ nid k = nid x.

(** The argument [p] is as documented, and the nodes it refers to are among the
    children.  [mem]: demand the latter also of arrays. *)
Definition meets (mem : bool) (kids : list node) (d : dparam) (p : aparam) : Prop :=
  match d, p with
  | DOne ts, PN o => exists x, o = Some x /\ typed ts x /\ child_of kids x
  | DOpt ts, PN o => forall x, o = Some x -> typed ts x /\ child_of kids x
  | DAll ts, PL l => forall x, In x l -> typed ts x /\ (mem = true -> child_of kids x)
  | DList, PL l => forall x, In x l -> mem = true -> child_of kids x
  | DPairs t1 t2, PL l => forall i x, nth_error l i = Some x ->
      typed [if Nat.even i then t1 else t2] x /\ (mem = true -> child_of kids x)
  | DAlternate t1 t2, PL l => Nat.odd (List.length l) = true /\ forall i x, nth_error l i = Some x ->
      typed [if Nat.even i then t1 else t2] x /\ child_of kids x
  | DOp, PO o => o <> None
  | DOps, POs l => l <> []
  | DFree, (PB _ | PD _ | PS _) => True
  | _, _ => False
  end.

(** Where the documentation and the checks of the constructor differ: type and
    position of the parameter *)
Definition undocumented : list (asttype * nat) :=
  [ (T_WITH, 4); (T_WITH, 5); (T_RETURN, 4); (T_RETURN, 5);   (* any expression is accepted *)
    (T_WITH, 6); (T_MAP_PROJECTION, 1);                       (* not checked at all *)
    (T_CASE, 0);                                              (* may be null *)
    (T_CASE, 1);                                              (* only the first half is checked *)
    (T_PATTERN_COMPREHENSION, 1);                             (* a pattern path *)
    (T_CREATE_REL_PROP_CONSTRAINT, 1); (T_DROP_REL_PROP_CONSTRAINT, 1) ].  (* a relationship type *)

(** ** Copies of trees *)

(** the pointer [j] plays in the copy the role that [i] plays in the original:
    they point to the children at the same index *)
Definition same_ref (kids ckids : list node) (i j : nat) : Prop :=
  exists k a b, nth_error kids k = Some a /\ nth_error ckids k = Some b /\ nid a = i /\ nid b = j.

Definition same_field (kids ckids : list node) (f g : field) : Prop :=
  match f, g with
  | FNode None, FNode None => True
  | FNode (Some i), FNode (Some j) => same_ref kids ckids i j
  | FList l, FList m => Forall2 (same_ref kids ckids) l m
  | FBool a, FBool b => a = b
  | FDir a, FDir b => a = b
  | FOper a, FOper b => a = b
  | FOpers a, FOpers b => a = b
  | FStr a, FStr b => a = b
  | _, _ => False
  end.

(** equal trees up to the addresses of their nodes (and their ordinals, which
    are not copied) *)
Inductive same : node -> node -> Prop :=
| same_node : forall i j t r f g ks cks o o',
    Forall2 same ks cks -> Forall2 (same_field ks cks) f g ->
    same (Node i t r f ks o) (Node j t r g cks o').

(** the nodes of the copy are new *)
Definition brand_new (n m : nat) (c : node) : Prop :=
  NoDup (map nid (preorder c)) /\ Forall (fun x => n <= nid x < m) (preorder c).

(** the node is as its constructor makes it from nodes that are its children *)
Definition built (x : node) : Prop :=
  exists ps, construct (nid x) (nty x) ps (nkids x) (nrng x)
               = Some (Node (nid x) (nty x) (nrng x) (nflds x) (nkids x) 0) /\
    (forall y, In (PN (Some y)) ps -> In y (nkids x)) /\
    (forall l y, In (PL l) ps -> In y l -> In y (nkids x)) /\
    (terminal (nty x) = true -> nkids x = []).

(** types that are never copied correctly *)
Definition miscloned : list asttype :=
  [T_START; T_WITH; T_RETURN; T_PATTERN_COMPREHENSION; T_NONE; T_DROP_REL_PROP_CONSTRAINT].

(** types of nodes copied with half of their pointers *)
Definition half_cloned : list asttype := [T_CASE; T_MAP].

Definition clonable (x : node) : Prop :=
  built x /\ ~ In (nty x) (miscloned ++ half_cloned) /\
  forall s, In (FStr s) (nflds x) -> ~ In ("000"%char) s.

(** all pointers of a node are to its first child *)
Definition points_first (x : node) : Prop :=
  forall i, In i (flat_map (fun f => match f with FNode (Some x) => [x] | FList l => l | _ => [] end) (nflds x)) ->
  exists k ks, nkids x = k :: ks /\ nid k = i.
