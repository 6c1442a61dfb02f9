(** * What the API documentation promises about the accessors of AST nodes

    The tables are transcribed from lib/src/cypher-parser.h.in, not from the
    code: the names of the parameters of the constructors, and which of them
    each accessor is documented to return.  The lines of the prototypes are
    cited. *)
From Coq Require Import List Bool Arith Ascii String.
From Verif Require Import Peg QuickModel ErrModel CypherSyntax AstTypes AstModel CypherSpec AstSpec AccessModel.
Import ListNotations.
Local Open Scope string_scope.

(** The parameters of the constructor of each type, but for array lengths,
    children and range (MAP: those of cypher_ast_pair_map) *)
Definition doc_names (t : asttype) : list string :=
  match t with
  | T_STATEMENT => ["options"; "body"]   (* cypher-parser.h.in:521 *)
  | T_CYPHER_OPTION => ["version"; "params"]   (* cypher-parser.h.in:582 *)
  | T_CYPHER_OPTION_PARAM => ["name"; "value"]   (* cypher-parser.h.in:639 *)
  | T_EXPLAIN_OPTION => []   (* cypher-parser.h.in:679 *)
  | T_PROFILE_OPTION => []   (* cypher-parser.h.in:691 *)
  | T_CREATE_NODE_PROPS_INDEX => ["label"; "prop_names"]   (* cypher-parser.h.in:708 *)
  | T_DROP_NODE_PROPS_INDEX => ["label"; "prop_names"]   (* cypher-parser.h.in:767 *)
  | T_CREATE_NODE_PROP_CONSTRAINT => ["identifier"; "label"; "expression"; "unique"]   (* cypher-parser.h.in:828 *)
  | T_DROP_NODE_PROP_CONSTRAINT => ["identifier"; "label"; "expression"; "unique"]   (* cypher-parser.h.in:901 *)
  | T_CREATE_REL_PROP_CONSTRAINT => ["identifier"; "label"; "expression"; "unique"]   (* cypher-parser.h.in:974 *)
  | T_DROP_REL_PROP_CONSTRAINT => ["identifier"; "label"; "expression"; "unique"]   (* cypher-parser.h.in:1047 *)
  | T_QUERY => ["options"; "clauses"]   (* cypher-parser.h.in:1120 *)
  | T_USING_PERIODIC_COMMIT => ["limit"]   (* cypher-parser.h.in:1190 *)
  | T_LOAD_CSV => ["with_headers"; "url"; "identifier"; "field_terminator"]   (* cypher-parser.h.in:1224 *)
  | T_START => ["points"; "predicate"]   (* cypher-parser.h.in:1297 *)
  | T_NODE_INDEX_LOOKUP => ["identifier"; "index_name"; "prop_name"; "lookup"]   (* cypher-parser.h.in:1357 *)
  | T_NODE_INDEX_QUERY => ["identifier"; "index_name"; "query"]   (* cypher-parser.h.in:1430 *)
  | T_NODE_ID_LOOKUP => ["identifier"; "ids"]   (* cypher-parser.h.in:1489 *)
  | T_ALL_NODES_SCAN => ["identifier"]   (* cypher-parser.h.in:1546 *)
  | T_REL_INDEX_LOOKUP => ["identifier"; "index_name"; "prop_name"; "lookup"]   (* cypher-parser.h.in:1579 *)
  | T_REL_INDEX_QUERY => ["identifier"; "index_name"; "query"]   (* cypher-parser.h.in:1653 *)
  | T_REL_ID_LOOKUP => ["identifier"; "ids"]   (* cypher-parser.h.in:1712 *)
  | T_ALL_RELS_SCAN => ["identifier"]   (* cypher-parser.h.in:1770 *)
  | T_MATCH => ["optional"; "pattern"; "hints"; "predicate"]   (* cypher-parser.h.in:1805 *)
  | T_USING_INDEX => ["identifier"; "label"; "prop_name"]   (* cypher-parser.h.in:1891 *)
  | T_USING_JOIN => ["identifiers"]   (* cypher-parser.h.in:1950 *)
  | T_USING_SCAN => ["identifier"; "label"]   (* cypher-parser.h.in:1995 *)
  | T_MERGE => ["path"; "actions"]   (* cypher-parser.h.in:2040 *)
  | T_ON_MATCH => ["items"]   (* cypher-parser.h.in:2098 *)
  | T_ON_CREATE => ["items"]   (* cypher-parser.h.in:2142 *)
  | T_CREATE => ["unique"; "pattern"]   (* cypher-parser.h.in:2186 *)
  | T_SET => ["items"]   (* cypher-parser.h.in:2229 *)
  | T_SET_PROPERTY => ["property"; "expression"]   (* cypher-parser.h.in:2273 *)
  | T_SET_ALL_PROPERTIES => ["identifier"; "expression"]   (* cypher-parser.h.in:2317 *)
  | T_MERGE_PROPERTIES => ["identifier"; "expression"]   (* cypher-parser.h.in:2362 *)
  | T_SET_LABELS => ["identifier"; "labels"]   (* cypher-parser.h.in:2409 *)
  | T_DELETE => ["detach"; "expressions"]   (* cypher-parser.h.in:2469 *)
  | T_REMOVE => ["items"]   (* cypher-parser.h.in:2526 *)
  | T_REMOVE_LABELS => ["identifier"; "labels"]   (* cypher-parser.h.in:2571 *)
  | T_REMOVE_PROPERTY => ["property"]   (* cypher-parser.h.in:2628 *)
  | T_FOREACH => ["identifier"; "expression"; "clauses"]   (* cypher-parser.h.in:2661 *)
  | T_WITH => ["distinct"; "include_existing"; "projections"; "order_by"; "skip"; "limit"; "predicate"]   (* cypher-parser.h.in:2740 *)
  | T_UNWIND => ["expression"; "alias"]   (* cypher-parser.h.in:2863 *)
  | T_CALL => ["proc_name"; "args"; "projections"; "predicate"]   (* cypher-parser.h.in:2912 *)
  | T_RETURN => ["distinct"; "include_existing"; "projections"; "order_by"; "skip"; "limit"]   (* cypher-parser.h.in:3018 *)
  | T_PROJECTION => ["expression"; "alias"]   (* cypher-parser.h.in:3125 *)
  | T_ORDER_BY => ["items"]   (* cypher-parser.h.in:3167 *)
  | T_SORT_ITEM => ["expression"; "ascending"]   (* cypher-parser.h.in:3209 *)
  | T_UNION => ["all"]   (* cypher-parser.h.in:3251 *)
  | T_UNARY_OPERATOR => ["op"; "arg"]   (* cypher-parser.h.in:3281 *)
  | T_BINARY_OPERATOR => ["op"; "arg1"; "arg2"]   (* cypher-parser.h.in:3328 *)
  | T_COMPARISON => ["ops"; "args"]   (* cypher-parser.h.in:3389 *)
  | T_APPLY_OPERATOR => ["func_name"; "distinct"; "args"]   (* cypher-parser.h.in:3451 *)
  | T_APPLY_ALL_OPERATOR => ["func_name"; "distinct"]   (* cypher-parser.h.in:3521 *)
  | T_PROPERTY_OPERATOR => ["expression"; "prop_name"]   (* cypher-parser.h.in:3565 *)
  | T_SUBSCRIPT_OPERATOR => ["expression"; "subscript"]   (* cypher-parser.h.in:3610 *)
  | T_SLICE_OPERATOR => ["expression"; "start"; "end"]   (* cypher-parser.h.in:3656 *)
  | T_LABELS_OPERATOR => ["expression"; "labels"]   (* cypher-parser.h.in:3899 *)
  | T_LIST_COMPREHENSION => ["identifier"; "expression"; "predicate"; "eval"]   (* cypher-parser.h.in:3959 *)
  | T_PATTERN_COMPREHENSION => ["identifier"; "pattern"; "predicate"; "eval"]   (* cypher-parser.h.in:4153 *)
  | T_CASE => ["expression"; "alternatives"; "deflt"]   (* cypher-parser.h.in:4317 *)
  | T_FILTER => ["identifier"; "expression"; "predicate"]   (* cypher-parser.h.in:4032 *)
  | T_EXTRACT => ["identifier"; "expression"; "eval"]   (* cypher-parser.h.in:4052 *)
  | T_REDUCE => ["accumulator"; "init"; "identifier"; "expression"; "eval"]   (* cypher-parser.h.in:4229 *)
  | T_ALL => ["identifier"; "expression"; "predicate"]   (* cypher-parser.h.in:4072 *)
  | T_ANY => ["identifier"; "expression"; "predicate"]   (* cypher-parser.h.in:4092 *)
  | T_SINGLE => ["identifier"; "expression"; "predicate"]   (* cypher-parser.h.in:4112 *)
  | T_NONE => ["identifier"; "expression"; "predicate"]   (* cypher-parser.h.in:4132 *)
  | T_COLLECTION => ["elements"]   (* cypher-parser.h.in:4402 *)
  | T_MAP => ["pairs"]   (* cypher-parser.h.in:4469 *)
  | T_IDENTIFIER => ["s"]   (* cypher-parser.h.in:4525 *)
  | T_PARAMETER => ["s"]   (* cypher-parser.h.in:4552 *)
  | T_STRING => ["s"]   (* cypher-parser.h.in:4579 *)
  | T_INTEGER => ["s"]   (* cypher-parser.h.in:4606 *)
  | T_FLOAT => ["s"]   (* cypher-parser.h.in:4633 *)
  | T_TRUE => []   (* cypher-parser.h.in:4658 *)
  | T_FALSE => []   (* cypher-parser.h.in:4670 *)
  | T_NULL => []   (* cypher-parser.h.in:4682 *)
  | T_LABEL => ["s"]   (* cypher-parser.h.in:4694 *)
  | T_RELTYPE => ["s"]   (* cypher-parser.h.in:4719 *)
  | T_PROP_NAME => ["s"]   (* cypher-parser.h.in:4744 *)
  | T_FUNCTION_NAME => ["s"]   (* cypher-parser.h.in:4769 *)
  | T_INDEX_NAME => ["s"]   (* cypher-parser.h.in:4794 *)
  | T_PROC_NAME => ["s"]   (* cypher-parser.h.in:4819 *)
  | T_PATTERN => ["paths"]   (* cypher-parser.h.in:4847 *)
  | T_NAMED_PATH => ["identifier"; "path"]   (* cypher-parser.h.in:4891 *)
  | T_SHORTEST_PATH => ["single"; "path"]   (* cypher-parser.h.in:4936 *)
  | T_PATTERN_PATH => ["elements"]   (* cypher-parser.h.in:4978 *)
  | T_NODE_PATTERN => ["identifier"; "labels"; "properties"]   (* cypher-parser.h.in:5027 *)
  | T_REL_PATTERN => ["direction"; "identifier"; "reltypes"; "properties"; "varlength"]   (* cypher-parser.h.in:5102 *)
  | T_RANGE => ["start"; "end"]   (* cypher-parser.h.in:5199 *)
  | T_COMMAND => ["name"; "args"]   (* cypher-parser.h.in:5242 *)
  | T_LINE_COMMENT => ["s"]   (* cypher-parser.h.in:5301 *)
  | T_BLOCK_COMMENT => ["s"]   (* cypher-parser.h.in:5328 *)
  | T_ERROR => ["s"]   (* cypher-parser.h.in:5353 *)
  | T_MAP_PROJECTION => ["expression"; "selectors"]   (* cypher-parser.h.in:3716 *)
  | T_MAP_PROJECTION_LITERAL => ["prop_name"; "expression"]   (* cypher-parser.h.in:3775 *)
  | T_MAP_PROJECTION_PROPERTY => ["prop_name"]   (* cypher-parser.h.in:3819 *)
  | T_MAP_PROJECTION_IDENTIFIER => ["identifier"]   (* cypher-parser.h.in:3850 *)
  | T_MAP_PROJECTION_ALL_PROPERTIES => []   (* cypher-parser.h.in:3880 *)
  | _ => []
  end.

Inductive want : Set :=
| WParam (p : string)        (* the parameter, or null if the constructor has none of that name *)
| WCount (p : string)        (* the number of elements of an array *)
| WElem (p : string)         (* an element of an array, null beyond its end *)
| WPairs (p : string)        (* the number of pairs in an array *)
| WFst (p : string)          (* the first of a pair *)
| WSnd (p : string)          (* the second of a pair *)
| WPathCount                 (* the number of elements of a path *)
| WPathElem.                 (* an element of a path *)

(** The type of node that each accessor is for, and what it returns *)
Definition doc_access (a : accessor) : asttype * want :=
  match a with
  | A_statement_noptions => (T_STATEMENT, WCount "options")   (* cypher-parser.h.in:536 *)
  | A_statement_get_option => (T_STATEMENT, WElem "options")   (* cypher-parser.h.in:549 *)
  | A_statement_get_body => (T_STATEMENT, WParam "body")   (* cypher-parser.h.in:562 *)
  | A_cypher_option_get_version => (T_CYPHER_OPTION, WParam "version")   (* cypher-parser.h.in:597 *)
  | A_cypher_option_nparams => (T_CYPHER_OPTION, WCount "params")   (* cypher-parser.h.in:610 *)
  | A_cypher_option_get_param => (T_CYPHER_OPTION, WElem "params")   (* cypher-parser.h.in:624 *)
  | A_cypher_option_param_get_name => (T_CYPHER_OPTION_PARAM, WParam "name")   (* cypher-parser.h.in:653 *)
  | A_cypher_option_param_get_value => (T_CYPHER_OPTION_PARAM, WParam "value")   (* cypher-parser.h.in:666 *)
  | A_create_node_props_index_get_label => (T_CREATE_NODE_PROPS_INDEX, WParam "label")   (* cypher-parser.h.in:723 *)
  | A_create_node_props_index_nprops => (T_CREATE_NODE_PROPS_INDEX, WCount "prop_names")   (* cypher-parser.h.in:736 *)
  | A_create_node_props_index_get_prop_name => (T_CREATE_NODE_PROPS_INDEX, WElem "prop_names")   (* cypher-parser.h.in:750 *)
  | A_drop_node_props_index_get_label => (T_DROP_NODE_PROPS_INDEX, WParam "label")   (* cypher-parser.h.in:782 *)
  | A_drop_node_props_index_nprops => (T_DROP_NODE_PROPS_INDEX, WCount "prop_names")   (* cypher-parser.h.in:795 *)
  | A_drop_node_props_index_get_prop_name => (T_DROP_NODE_PROPS_INDEX, WElem "prop_names")   (* cypher-parser.h.in:809 *)
  | A_create_node_prop_constraint_get_identifier => (T_CREATE_NODE_PROP_CONSTRAINT, WParam "identifier")   (* cypher-parser.h.in:844 *)
  | A_create_node_prop_constraint_get_label => (T_CREATE_NODE_PROP_CONSTRAINT, WParam "label")   (* cypher-parser.h.in:857 *)
  | A_create_node_prop_constraint_get_expression => (T_CREATE_NODE_PROP_CONSTRAINT, WParam "expression")   (* cypher-parser.h.in:870 *)
  | A_create_node_prop_constraint_is_unique => (T_CREATE_NODE_PROP_CONSTRAINT, WParam "unique")   (* cypher-parser.h.in:882 *)
  | A_drop_node_prop_constraint_get_identifier => (T_DROP_NODE_PROP_CONSTRAINT, WParam "identifier")   (* cypher-parser.h.in:917 *)
  | A_drop_node_prop_constraint_get_label => (T_DROP_NODE_PROP_CONSTRAINT, WParam "label")   (* cypher-parser.h.in:930 *)
  | A_drop_node_prop_constraint_get_expression => (T_DROP_NODE_PROP_CONSTRAINT, WParam "expression")   (* cypher-parser.h.in:943 *)
  | A_drop_node_prop_constraint_is_unique => (T_DROP_NODE_PROP_CONSTRAINT, WParam "unique")   (* cypher-parser.h.in:955 *)
  | A_create_rel_prop_constraint_get_identifier => (T_CREATE_REL_PROP_CONSTRAINT, WParam "identifier")   (* cypher-parser.h.in:990 *)
  | A_create_rel_prop_constraint_get_reltype => (T_CREATE_REL_PROP_CONSTRAINT, WParam "label")   (* cypher-parser.h.in:1003 *)
  | A_create_rel_prop_constraint_get_expression => (T_CREATE_REL_PROP_CONSTRAINT, WParam "expression")   (* cypher-parser.h.in:1016 *)
  | A_create_rel_prop_constraint_is_unique => (T_CREATE_REL_PROP_CONSTRAINT, WParam "unique")   (* cypher-parser.h.in:1028 *)
  | A_drop_rel_prop_constraint_get_identifier => (T_DROP_REL_PROP_CONSTRAINT, WParam "identifier")   (* cypher-parser.h.in:1063 *)
  | A_drop_rel_prop_constraint_get_reltype => (T_DROP_REL_PROP_CONSTRAINT, WParam "label")   (* cypher-parser.h.in:1076 *)
  | A_drop_rel_prop_constraint_get_expression => (T_DROP_REL_PROP_CONSTRAINT, WParam "expression")   (* cypher-parser.h.in:1089 *)
  | A_drop_rel_prop_constraint_is_unique => (T_DROP_REL_PROP_CONSTRAINT, WParam "unique")   (* cypher-parser.h.in:1101 *)
  | A_query_noptions => (T_QUERY, WCount "options")   (* cypher-parser.h.in:1135 *)
  | A_query_get_option => (T_QUERY, WElem "options")   (* cypher-parser.h.in:1148 *)
  | A_query_nclauses => (T_QUERY, WCount "clauses")   (* cypher-parser.h.in:1161 *)
  | A_query_get_clause => (T_QUERY, WElem "clauses")   (* cypher-parser.h.in:1174 *)
  | A_using_periodic_commit_get_limit => (T_USING_PERIODIC_COMMIT, WParam "limit")   (* cypher-parser.h.in:1204 *)
  | A_load_csv_has_with_headers => (T_LOAD_CSV, WParam "with_headers")   (* cypher-parser.h.in:1240 *)
  | A_load_csv_get_url => (T_LOAD_CSV, WParam "url")   (* cypher-parser.h.in:1252 *)
  | A_load_csv_get_identifier => (T_LOAD_CSV, WParam "identifier")   (* cypher-parser.h.in:1265 *)
  | A_load_csv_get_field_terminator => (T_LOAD_CSV, WParam "field_terminator")   (* cypher-parser.h.in:1278 *)
  | A_start_npoints => (T_START, WCount "points")   (* cypher-parser.h.in:1312 *)
  | A_start_get_point => (T_START, WElem "points")   (* cypher-parser.h.in:1325 *)
  | A_start_get_predicate => (T_START, WParam "predicate")   (* cypher-parser.h.in:1338 *)
  | A_node_index_lookup_get_identifier => (T_NODE_INDEX_LOOKUP, WParam "identifier")   (* cypher-parser.h.in:1373 *)
  | A_node_index_lookup_get_index_name => (T_NODE_INDEX_LOOKUP, WParam "index_name")   (* cypher-parser.h.in:1386 *)
  | A_node_index_lookup_get_prop_name => (T_NODE_INDEX_LOOKUP, WParam "prop_name")   (* cypher-parser.h.in:1399 *)
  | A_node_index_lookup_get_lookup => (T_NODE_INDEX_LOOKUP, WParam "lookup")   (* cypher-parser.h.in:1412 *)
  | A_node_index_query_get_identifier => (T_NODE_INDEX_QUERY, WParam "identifier")   (* cypher-parser.h.in:1445 *)
  | A_node_index_query_get_index_name => (T_NODE_INDEX_QUERY, WParam "index_name")   (* cypher-parser.h.in:1458 *)
  | A_node_index_query_get_query => (T_NODE_INDEX_QUERY, WParam "query")   (* cypher-parser.h.in:1471 *)
  | A_node_id_lookup_get_identifier => (T_NODE_ID_LOOKUP, WParam "identifier")   (* cypher-parser.h.in:1504 *)
  | A_node_id_lookup_nids => (T_NODE_ID_LOOKUP, WCount "ids")   (* cypher-parser.h.in:1517 *)
  | A_node_id_lookup_get_id => (T_NODE_ID_LOOKUP, WElem "ids")   (* cypher-parser.h.in:1530 *)
  | A_all_nodes_scan_get_identifier => (T_ALL_NODES_SCAN, WParam "identifier")   (* cypher-parser.h.in:1560 *)
  | A_rel_index_lookup_get_identifier => (T_REL_INDEX_LOOKUP, WParam "identifier")   (* cypher-parser.h.in:1596 *)
  | A_rel_index_lookup_get_index_name => (T_REL_INDEX_LOOKUP, WParam "index_name")   (* cypher-parser.h.in:1609 *)
  | A_rel_index_lookup_get_prop_name => (T_REL_INDEX_LOOKUP, WParam "prop_name")   (* cypher-parser.h.in:1622 *)
  | A_rel_index_lookup_get_lookup => (T_REL_INDEX_LOOKUP, WParam "lookup")   (* cypher-parser.h.in:1635 *)
  | A_rel_index_query_get_identifier => (T_REL_INDEX_QUERY, WParam "identifier")   (* cypher-parser.h.in:1668 *)
  | A_rel_index_query_get_index_name => (T_REL_INDEX_QUERY, WParam "index_name")   (* cypher-parser.h.in:1681 *)
  | A_rel_index_query_get_query => (T_REL_INDEX_QUERY, WParam "query")   (* cypher-parser.h.in:1694 *)
  | A_rel_id_lookup_get_identifier => (T_REL_ID_LOOKUP, WParam "identifier")   (* cypher-parser.h.in:1728 *)
  | A_rel_id_lookup_nids => (T_REL_ID_LOOKUP, WCount "ids")   (* cypher-parser.h.in:1741 *)
  | A_rel_id_lookup_get_id => (T_REL_ID_LOOKUP, WElem "ids")   (* cypher-parser.h.in:1754 *)
  | A_all_rels_scan_get_identifier => (T_ALL_RELS_SCAN, WParam "identifier")   (* cypher-parser.h.in:1784 *)
  | A_match_is_optional => (T_MATCH, WParam "optional")   (* cypher-parser.h.in:1822 *)
  | A_match_get_pattern => (T_MATCH, WParam "pattern")   (* cypher-parser.h.in:1834 *)
  | A_match_nhints => (T_MATCH, WCount "hints")   (* cypher-parser.h.in:1847 *)
  | A_match_get_hint => (T_MATCH, WElem "hints")   (* cypher-parser.h.in:1860 *)
  | A_match_get_predicate => (T_MATCH, WParam "predicate")   (* cypher-parser.h.in:1873 *)
  | A_using_index_get_identifier => (T_USING_INDEX, WParam "identifier")   (* cypher-parser.h.in:1906 *)
  | A_using_index_get_label => (T_USING_INDEX, WParam "label")   (* cypher-parser.h.in:1919 *)
  | A_using_index_get_prop_name => (T_USING_INDEX, WParam "prop_name")   (* cypher-parser.h.in:1932 *)
  | A_using_join_nidentifiers => (T_USING_JOIN, WCount "identifiers")   (* cypher-parser.h.in:1965 *)
  | A_using_join_get_identifier => (T_USING_JOIN, WElem "identifiers")   (* cypher-parser.h.in:1978 *)
  | A_using_scan_get_identifier => (T_USING_SCAN, WParam "identifier")   (* cypher-parser.h.in:2009 *)
  | A_using_scan_get_label => (T_USING_SCAN, WParam "label")   (* cypher-parser.h.in:2022 *)
  | A_merge_get_pattern_path => (T_MERGE, WParam "path")   (* cypher-parser.h.in:2055 *)
  | A_merge_nactions => (T_MERGE, WCount "actions")   (* cypher-parser.h.in:2068 *)
  | A_merge_get_action => (T_MERGE, WElem "actions")   (* cypher-parser.h.in:2081 *)
  | A_on_match_nitems => (T_ON_MATCH, WCount "items")   (* cypher-parser.h.in:2112 *)
  | A_on_match_get_item => (T_ON_MATCH, WElem "items")   (* cypher-parser.h.in:2125 *)
  | A_on_create_nitems => (T_ON_CREATE, WCount "items")   (* cypher-parser.h.in:2156 *)
  | A_on_create_get_item => (T_ON_CREATE, WElem "items")   (* cypher-parser.h.in:2169 *)
  | A_create_is_unique => (T_CREATE, WParam "unique")   (* cypher-parser.h.in:2200 *)
  | A_create_get_pattern => (T_CREATE, WParam "pattern")   (* cypher-parser.h.in:2212 *)
  | A_set_nitems => (T_SET, WCount "items")   (* cypher-parser.h.in:2243 *)
  | A_set_get_item => (T_SET, WElem "items")   (* cypher-parser.h.in:2256 *)
  | A_set_property_get_property => (T_SET_PROPERTY, WParam "property")   (* cypher-parser.h.in:2287 *)
  | A_set_property_get_expression => (T_SET_PROPERTY, WParam "expression")   (* cypher-parser.h.in:2300 *)
  | A_set_all_properties_get_identifier => (T_SET_ALL_PROPERTIES, WParam "identifier")   (* cypher-parser.h.in:2332 *)
  | A_set_all_properties_get_expression => (T_SET_ALL_PROPERTIES, WParam "expression")   (* cypher-parser.h.in:2345 *)
  | A_merge_properties_get_identifier => (T_MERGE_PROPERTIES, WParam "identifier")   (* cypher-parser.h.in:2377 *)
  | A_merge_properties_get_expression => (T_MERGE_PROPERTIES, WParam "expression")   (* cypher-parser.h.in:2390 *)
  | A_set_labels_get_identifier => (T_SET_LABELS, WParam "identifier")   (* cypher-parser.h.in:2424 *)
  | A_set_labels_nlabels => (T_SET_LABELS, WCount "labels")   (* cypher-parser.h.in:2437 *)
  | A_set_labels_get_label => (T_SET_LABELS, WElem "labels")   (* cypher-parser.h.in:2450 *)
  | A_delete_has_detach => (T_DELETE, WParam "detach")   (* cypher-parser.h.in:2484 *)
  | A_delete_nexpressions => (T_DELETE, WCount "expressions")   (* cypher-parser.h.in:2496 *)
  | A_delete_get_expression => (T_DELETE, WElem "expressions")   (* cypher-parser.h.in:2509 *)
  | A_remove_nitems => (T_REMOVE, WCount "items")   (* cypher-parser.h.in:2540 *)
  | A_remove_get_item => (T_REMOVE, WElem "items")   (* cypher-parser.h.in:2553 *)
  | A_remove_labels_get_identifier => (T_REMOVE_LABELS, WParam "identifier")   (* cypher-parser.h.in:2586 *)
  | A_remove_labels_nlabels => (T_REMOVE_LABELS, WCount "labels")   (* cypher-parser.h.in:2599 *)
  | A_remove_labels_get_label => (T_REMOVE_LABELS, WElem "labels")   (* cypher-parser.h.in:2612 *)
  | A_remove_property_get_property => (T_REMOVE_PROPERTY, WParam "property")   (* cypher-parser.h.in:2642 *)
  | A_foreach_get_identifier => (T_FOREACH, WParam "identifier")   (* cypher-parser.h.in:2676 *)
  | A_foreach_get_expression => (T_FOREACH, WParam "expression")   (* cypher-parser.h.in:2689 *)
  | A_foreach_nclauses => (T_FOREACH, WCount "clauses")   (* cypher-parser.h.in:2702 *)
  | A_foreach_get_clause => (T_FOREACH, WElem "clauses")   (* cypher-parser.h.in:2715 *)
  | A_with_is_distinct => (T_WITH, WParam "distinct")   (* cypher-parser.h.in:2757 *)
  | A_with_has_include_existing => (T_WITH, WParam "include_existing")   (* cypher-parser.h.in:2769 *)
  | A_with_nprojections => (T_WITH, WCount "projections")   (* cypher-parser.h.in:2781 *)
  | A_with_get_projection => (T_WITH, WElem "projections")   (* cypher-parser.h.in:2794 *)
  | A_with_get_order_by => (T_WITH, WParam "order_by")   (* cypher-parser.h.in:2807 *)
  | A_with_get_skip => (T_WITH, WParam "skip")   (* cypher-parser.h.in:2820 *)
  | A_with_get_limit => (T_WITH, WParam "limit")   (* cypher-parser.h.in:2833 *)
  | A_with_get_predicate => (T_WITH, WParam "predicate")   (* cypher-parser.h.in:2846 *)
  | A_unwind_get_expression => (T_UNWIND, WParam "expression")   (* cypher-parser.h.in:2877 *)
  | A_unwind_get_alias => (T_UNWIND, WParam "alias")   (* cypher-parser.h.in:2890 *)
  | A_call_get_proc_name => (T_CALL, WParam "proc_name")   (* cypher-parser.h.in:2928 *)
  | A_call_narguments => (T_CALL, WCount "args")   (* cypher-parser.h.in:2941 *)
  | A_call_get_argument => (T_CALL, WElem "args")   (* cypher-parser.h.in:2954 *)
  | A_call_nprojections => (T_CALL, WCount "projections")   (* cypher-parser.h.in:2967 *)
  | A_call_get_projection => (T_CALL, WElem "projections")   (* cypher-parser.h.in:2980 *)
  | A_call_get_predicate => (T_CALL, WParam "predicate")   (* cypher-parser.h.in:2994 *)
  | A_return_is_distinct => (T_RETURN, WParam "distinct")   (* cypher-parser.h.in:3034 *)
  | A_return_has_include_existing => (T_RETURN, WParam "include_existing")   (* cypher-parser.h.in:3046 *)
  | A_return_nprojections => (T_RETURN, WCount "projections")   (* cypher-parser.h.in:3058 *)
  | A_return_get_projection => (T_RETURN, WElem "projections")   (* cypher-parser.h.in:3071 *)
  | A_return_get_order_by => (T_RETURN, WParam "order_by")   (* cypher-parser.h.in:3084 *)
  | A_return_get_skip => (T_RETURN, WParam "skip")   (* cypher-parser.h.in:3097 *)
  | A_return_get_limit => (T_RETURN, WParam "limit")   (* cypher-parser.h.in:3110 *)
  | A_projection_get_expression => (T_PROJECTION, WParam "expression")   (* cypher-parser.h.in:3139 *)
  | A_projection_get_alias => (T_PROJECTION, WParam "alias")   (* cypher-parser.h.in:3152 *)
  | A_order_by_nitems => (T_ORDER_BY, WCount "items")   (* cypher-parser.h.in:3181 *)
  | A_order_by_get_item => (T_ORDER_BY, WElem "items")   (* cypher-parser.h.in:3194 *)
  | A_sort_item_get_expression => (T_SORT_ITEM, WParam "expression")   (* cypher-parser.h.in:3223 *)
  | A_sort_item_is_ascending => (T_SORT_ITEM, WParam "ascending")   (* cypher-parser.h.in:3236 *)
  | A_union_has_all => (T_UNION, WParam "all")   (* cypher-parser.h.in:3264 *)
  | A_unary_operator_get_operator => (T_UNARY_OPERATOR, WParam "op")   (* cypher-parser.h.in:3295 *)
  | A_unary_operator_get_argument => (T_UNARY_OPERATOR, WParam "arg")   (* cypher-parser.h.in:3308 *)
  | A_binary_operator_get_operator => (T_BINARY_OPERATOR, WParam "op")   (* cypher-parser.h.in:3343 *)
  | A_binary_operator_get_argument1 => (T_BINARY_OPERATOR, WParam "arg1")   (* cypher-parser.h.in:3356 *)
  | A_binary_operator_get_argument2 => (T_BINARY_OPERATOR, WParam "arg2")   (* cypher-parser.h.in:3369 *)
  | A_comparison_get_length => (T_COMPARISON, WCount "ops")   (* cypher-parser.h.in:3403 *)
  | A_comparison_get_operator => (T_COMPARISON, WElem "ops")   (* cypher-parser.h.in:3417 *)
  | A_comparison_get_argument => (T_COMPARISON, WElem "args")   (* cypher-parser.h.in:3432 *)
  | A_apply_operator_get_func_name => (T_APPLY_OPERATOR, WParam "func_name")   (* cypher-parser.h.in:3466 *)
  | A_apply_operator_get_distinct => (T_APPLY_OPERATOR, WParam "distinct")   (* cypher-parser.h.in:3479 *)
  | A_apply_operator_narguments => (T_APPLY_OPERATOR, WCount "args")   (* cypher-parser.h.in:3491 *)
  | A_apply_operator_get_argument => (T_APPLY_OPERATOR, WElem "args")   (* cypher-parser.h.in:3504 *)
  | A_apply_all_operator_get_func_name => (T_APPLY_ALL_OPERATOR, WParam "func_name")   (* cypher-parser.h.in:3536 *)
  | A_apply_all_operator_get_distinct => (T_APPLY_ALL_OPERATOR, WParam "distinct")   (* cypher-parser.h.in:3549 *)
  | A_property_operator_get_expression => (T_PROPERTY_OPERATOR, WParam "expression")   (* cypher-parser.h.in:3580 *)
  | A_property_operator_get_prop_name => (T_PROPERTY_OPERATOR, WParam "prop_name")   (* cypher-parser.h.in:3593 *)
  | A_subscript_operator_get_expression => (T_SUBSCRIPT_OPERATOR, WParam "expression")   (* cypher-parser.h.in:3625 *)
  | A_subscript_operator_get_subscript => (T_SUBSCRIPT_OPERATOR, WParam "subscript")   (* cypher-parser.h.in:3638 *)
  | A_slice_operator_get_expression => (T_SLICE_OPERATOR, WParam "expression")   (* cypher-parser.h.in:3671 *)
  | A_slice_operator_get_start => (T_SLICE_OPERATOR, WParam "start")   (* cypher-parser.h.in:3684 *)
  | A_slice_operator_get_end => (T_SLICE_OPERATOR, WParam "end")   (* cypher-parser.h.in:3697 *)
  | A_map_projection_get_expression => (T_MAP_PROJECTION, WParam "expression")   (* cypher-parser.h.in:3732 *)
  | A_map_projection_nselectors => (T_MAP_PROJECTION, WCount "selectors")   (* cypher-parser.h.in:3745 *)
  | A_map_projection_get_selector => (T_MAP_PROJECTION, WElem "selectors")   (* cypher-parser.h.in:3758 *)
  | A_map_projection_literal_get_prop_name => (T_MAP_PROJECTION_LITERAL, WParam "prop_name")   (* cypher-parser.h.in:3790 *)
  | A_map_projection_literal_get_expression => (T_MAP_PROJECTION_LITERAL, WParam "expression")   (* cypher-parser.h.in:3803 *)
  | A_map_projection_property_get_prop_name => (T_MAP_PROJECTION_PROPERTY, WParam "prop_name")   (* cypher-parser.h.in:3834 *)
  | A_map_projection_identifier_get_identifier => (T_MAP_PROJECTION_IDENTIFIER, WParam "identifier")   (* cypher-parser.h.in:3865 *)
  | A_labels_operator_get_expression => (T_LABELS_OPERATOR, WParam "expression")   (* cypher-parser.h.in:3914 *)
  | A_labels_operator_nlabels => (T_LABELS_OPERATOR, WCount "labels")   (* cypher-parser.h.in:3927 *)
  | A_labels_operator_get_label => (T_LABELS_OPERATOR, WElem "labels")   (* cypher-parser.h.in:3940 *)
  | A_list_comprehension_get_identifier => (T_LIST_COMPREHENSION, WParam "identifier")   (* cypher-parser.h.in:3975 *)
  | A_list_comprehension_get_expression => (T_LIST_COMPREHENSION, WParam "expression")   (* cypher-parser.h.in:3988 *)
  | A_list_comprehension_get_predicate => (T_LIST_COMPREHENSION, WParam "predicate")   (* cypher-parser.h.in:4001 *)
  | A_list_comprehension_get_eval => (T_LIST_COMPREHENSION, WParam "eval")   (* cypher-parser.h.in:4014 *)
  | A_pattern_comprehension_get_identifier => (T_PATTERN_COMPREHENSION, WParam "identifier")   (* cypher-parser.h.in:4170 *)
  | A_pattern_comprehension_get_pattern => (T_PATTERN_COMPREHENSION, WParam "pattern")   (* cypher-parser.h.in:4183 *)
  | A_pattern_comprehension_get_predicate => (T_PATTERN_COMPREHENSION, WParam "predicate")   (* cypher-parser.h.in:4196 *)
  | A_pattern_comprehension_get_eval => (T_PATTERN_COMPREHENSION, WParam "eval")   (* cypher-parser.h.in:4209 *)
  | A_reduce_get_accumulator => (T_REDUCE, WParam "accumulator")   (* cypher-parser.h.in:4245 *)
  | A_reduce_get_init => (T_REDUCE, WParam "init")   (* cypher-parser.h.in:4258 *)
  | A_reduce_get_identifier => (T_REDUCE, WParam "identifier")   (* cypher-parser.h.in:4271 *)
  | A_reduce_get_expression => (T_REDUCE, WParam "expression")   (* cypher-parser.h.in:4284 *)
  | A_reduce_get_eval => (T_REDUCE, WParam "eval")   (* cypher-parser.h.in:4297 *)
  | A_case_get_expression => (T_CASE, WParam "expression")   (* cypher-parser.h.in:4332 *)
  | A_case_nalternatives => (T_CASE, WPairs "alternatives")   (* cypher-parser.h.in:4345 *)
  | A_case_get_predicate => (T_CASE, WFst "alternatives")   (* cypher-parser.h.in:4358 *)
  | A_case_get_value => (T_CASE, WSnd "alternatives")   (* cypher-parser.h.in:4372 *)
  | A_case_get_default => (T_CASE, WParam "deflt")   (* cypher-parser.h.in:4385 *)
  | A_collection_length => (T_COLLECTION, WCount "elements")   (* cypher-parser.h.in:4417 *)
  | A_collection_get => (T_COLLECTION, WElem "elements")   (* cypher-parser.h.in:4431 *)
  | A_map_nentries => (T_MAP, WPairs "pairs")   (* cypher-parser.h.in:4483 *)
  | A_map_get_key => (T_MAP, WFst "pairs")   (* cypher-parser.h.in:4496 *)
  | A_map_get_value => (T_MAP, WSnd "pairs")   (* cypher-parser.h.in:4510 *)
  | A_identifier_get_name => (T_IDENTIFIER, WParam "s")   (* cypher-parser.h.in:4538 *)
  | A_parameter_get_name => (T_PARAMETER, WParam "s")   (* cypher-parser.h.in:4565 *)
  | A_string_get_value => (T_STRING, WParam "s")   (* cypher-parser.h.in:4592 *)
  | A_integer_get_valuestr => (T_INTEGER, WParam "s")   (* cypher-parser.h.in:4619 *)
  | A_float_get_valuestr => (T_FLOAT, WParam "s")   (* cypher-parser.h.in:4646 *)
  | A_label_get_name => (T_LABEL, WParam "s")   (* cypher-parser.h.in:4707 *)
  | A_reltype_get_name => (T_RELTYPE, WParam "s")   (* cypher-parser.h.in:4732 *)
  | A_prop_name_get_value => (T_PROP_NAME, WParam "s")   (* cypher-parser.h.in:4757 *)
  | A_function_name_get_value => (T_FUNCTION_NAME, WParam "s")   (* cypher-parser.h.in:4782 *)
  | A_index_name_get_value => (T_INDEX_NAME, WParam "s")   (* cypher-parser.h.in:4807 *)
  | A_proc_name_get_value => (T_PROC_NAME, WParam "s")   (* cypher-parser.h.in:4832 *)
  | A_pattern_npaths => (T_PATTERN, WCount "paths")   (* cypher-parser.h.in:4861 *)
  | A_pattern_get_path => (T_PATTERN, WElem "paths")   (* cypher-parser.h.in:4874 *)
  | A_named_path_get_identifier => (T_NAMED_PATH, WParam "identifier")   (* cypher-parser.h.in:4905 *)
  | A_named_path_get_path => (T_NAMED_PATH, WParam "path")   (* cypher-parser.h.in:4918 *)
  | A_shortest_path_is_single => (T_SHORTEST_PATH, WParam "single")   (* cypher-parser.h.in:4950 *)
  | A_shortest_path_get_path => (T_SHORTEST_PATH, WParam "path")   (* cypher-parser.h.in:4962 *)
  | A_pattern_path_nelements => (T_PATTERN_PATH, WPathCount)   (* cypher-parser.h.in:4992 *)
  | A_pattern_path_get_element => (T_PATTERN_PATH, WPathElem)   (* cypher-parser.h.in:5008 *)
  | A_node_pattern_get_identifier => (T_NODE_PATTERN, WParam "identifier")   (* cypher-parser.h.in:5042 *)
  | A_node_pattern_nlabels => (T_NODE_PATTERN, WCount "labels")   (* cypher-parser.h.in:5055 *)
  | A_node_pattern_get_label => (T_NODE_PATTERN, WElem "labels")   (* cypher-parser.h.in:5068 *)
  | A_node_pattern_get_properties => (T_NODE_PATTERN, WParam "properties")   (* cypher-parser.h.in:5081 *)
  | A_rel_pattern_get_direction => (T_REL_PATTERN, WParam "direction")   (* cypher-parser.h.in:5119 *)
  | A_rel_pattern_get_identifier => (T_REL_PATTERN, WParam "identifier")   (* cypher-parser.h.in:5132 *)
  | A_rel_pattern_nreltypes => (T_REL_PATTERN, WCount "reltypes")   (* cypher-parser.h.in:5145 *)
  | A_rel_pattern_get_reltype => (T_REL_PATTERN, WElem "reltypes")   (* cypher-parser.h.in:5158 *)
  | A_rel_pattern_get_varlength => (T_REL_PATTERN, WParam "varlength")   (* cypher-parser.h.in:5171 *)
  | A_rel_pattern_get_properties => (T_REL_PATTERN, WParam "properties")   (* cypher-parser.h.in:5184 *)
  | A_range_get_start => (T_RANGE, WParam "start")   (* cypher-parser.h.in:5213 *)
  | A_range_get_end => (T_RANGE, WParam "end")   (* cypher-parser.h.in:5226 *)
  | A_command_get_name => (T_COMMAND, WParam "name")   (* cypher-parser.h.in:5258 *)
  | A_command_narguments => (T_COMMAND, WCount "args")   (* cypher-parser.h.in:5271 *)
  | A_command_get_argument => (T_COMMAND, WElem "args")   (* cypher-parser.h.in:5286 *)
  | A_line_comment_get_value => (T_LINE_COMMENT, WParam "s")   (* cypher-parser.h.in:5314 *)
  | A_block_comment_get_value => (T_BLOCK_COMMENT, WParam "s")   (* cypher-parser.h.in:5341 *)
  | A_error_get_value => (T_ERROR, WParam "s")   (* cypher-parser.h.in:5366 *)
  end.

Definition doc_type (a : accessor) : asttype := fst (doc_access a).

(** the argument passed for the parameter named [p] *)
Fixpoint arg_named (names : list string) (ps : list aparam) (p : string) : option aparam :=
  match names, ps with
  | x :: names, a :: ps => if String.eqb x p then Some a else arg_named names ps p
  | _, _ => None
  end.

(** a C string: what precedes the first NUL *)
Fixpoint c_string (s : bytes) : bytes :=
  match s with
  | [] => []
  | c :: s => if Ascii.eqb c "000"%char then [] else c :: c_string s
  end.

Fixpoint in_pairs (l : list node) : list (node * node) :=
  match l with
  | x :: y :: l => (x, y) :: in_pairs l
  | _ => []
  end.

(** What an accessor that wants [w] is to return for a node of type [t] made
    from the arguments [ps] *)
Definition promised (t : asttype) (ps : list aparam) (w : want) (i : nat) (r : aret) : Prop :=
  match w with
  | WParam p =>
      match arg_named (doc_names t) ps p with
      | Some (PN o) => r = RNode (option_map nid o)
      | Some (PB b) => r = RBool b
      | Some (PD d) => r = RDir d
      | Some (PO o) => r = ROper o
      | Some (PS s) => r = RStr (c_string s)
      | Some _ => False
      | None => r = RNode None
      end
  | WCount p =>
      match arg_named (doc_names t) ps p with
      | Some (PL l) => r = RNum (List.length l)
      | Some (POs l) => r = RNum (List.length l)
      | _ => False
      end
  | WElem p =>
      match arg_named (doc_names t) ps p with
      | Some (PL l) => r = RNode (option_map nid (nth_error l i))
      | Some (POs l) => r = ROper (nth_error l i)
      | _ => False
      end
  | WPairs p =>
      match arg_named (doc_names t) ps p with
      | Some (PL l) => r = RNum (List.length (in_pairs l))
      | _ => False
      end
  | WFst p =>
      match arg_named (doc_names t) ps p with
      | Some (PL l) => r = RNode (option_map (fun q => nid (fst q)) (nth_error (in_pairs l) i))
      | _ => False
      end
  | WSnd p =>
      match arg_named (doc_names t) ps p with
      | Some (PL l) => r = RNode (option_map (fun q => nid (snd q)) (nth_error (in_pairs l) i))
      | _ => False
      end
  | WPathCount | WPathElem => False            (* see [path_elements] *)
  end.

Definition of_path (a : accessor) : Prop := snd (doc_access a) = WPathCount \/ snd (doc_access a) = WPathElem.

(** The elements of a path: those it was made of or, for a named or shortest
    path, those of the path it was made of. *)
Inductive path_elements : node -> list nat -> Prop :=
| pe_path : forall x l, nty x = T_PATTERN_PATH -> nflds x = [FList l] -> path_elements x l
| pe_named : forall x i p k l, nty x = T_NAMED_PATH -> nflds x = [FNode i; FNode (Some p)] ->
    In k (nkids x) -> nid k = p -> path_elements k l -> path_elements x l
| pe_shortest : forall x b p k l, nty x = T_SHORTEST_PATH -> nflds x = [FBool b; FNode (Some p)] ->
    In k (nkids x) -> nid k = p -> path_elements k l -> path_elements x l.
