(** * The grammar of the full parser, lib/src/parser.leg

    Every rule of the file, in file order, transcribed by a script (one leg
    construct to one [pexp] constructor):
    - [<] and [>] run YY_BEGIN / YY_END of lib/src/parser.c:502-505, which
      record block_start_action / block_end_action: [PPred (QDo ..)];
    - [v:name] is [bind k name]: match, then [yySet] of variable number k;
    - a rule with variables is [with_vars n body]: yyPush n, body, yyPop n
      (leg numbers a rule's variables; the numbering is immaterial as long as
      it is injective);
    - [e ~{ERR("label")}] is [PErr e (QErr label)];
    - rule names: '-' becomes '_' (as leg does in C identifiers); the rules
      called - and -- are [R_sp] and [R_hsp]. *)
From Verif Require Import Peg QuickModel CypherSyntax.
Open Scope peg_scope.

(** the rules, in file order *)
Inductive rule : Set :=
  | R___entry_points | R_directive | R__directive | R___directive | R_statement
  | R__statement | R___statement | R_cypher_statement | R_statement_option | R_cypher_option
  | R_cypher_version | R_cypher_param | R_cypher_param_name | R_cypher_param_val | R_profile_option
  | R_explain_option | R_schema_command | R_create_index | R_create_constraint | R_drop_index
  | R_drop_constraint | R_query | R_query_hints | R_clauses | R__clauses
  | R_periodic_commit | R_clause | R_loadcsv_clause | R_start_clause | R_start_point
  | R_node_ids | R_match_clause | R_hint | R_merge_clause | R_merge_action
  | R_merge_action_set | R_create_clause | R_set_clause | R_set_item | R_delete_clause
  | R_remove_clause | R_remove_item | R_foreach_clause | R_with_clause | R_additional_with_projections
  | R_with_projection | R_unwind_clause | R_call_clause | R_proc_projection | R_return_clause
  | R_additional_return_projections | R_return_projection | R_order_by | R_sort_item | R_skip
  | R_limit | R_union_clause | R_expression | R__prec_expression | R__expression
  | R__atom | R_map_projection_element | R_atom | R_property_expression | R_PREFIX_OP
  | R_POSTFIX_OP | R_INFIX_OP | R_COMPARISON_OP | R_list_comprehension | R_pattern_comprehension
  | R_case_expression | R_case_alternative | R_case_default | R_filter_expression | R_extract_expression
  | R_reduce_expression | R_all_predicate | R_any_predicate | R_single_predicate | R_none_predicate
  | R_function_application | R_collection_literal | R_map_literal | R_identifier | R_string_literal
  | R_float_literal | R_integer_literal | R_true_literal | R_false_literal | R_null_literal
  | R_parameter | R_label | R_rel_type | R_rel_type_name | R_prop_name
  | R_function_name | R_index_name | R_proc_name | R_pattern | R_pattern_part
  | R_anon_pattern_part | R_shortest_path_pattern | R_pattern_path | R_pattern_expression | R_pattern_expression_path
  | R_node_pattern | R_relationship_pattern | R_rel_types | R_rel_varlength | R_pattern_properties
  | R_client_command | R_client_command_name | R_client_command_arg | R_client_arg_string | R_unquoted
  | R_quoted | R_single_quoted | R_double_quoted | R_escaped_char | R_symbolic_name
  | R_unescaped_symbolic_name | R_escaped_symbolic_name | R_parameter_name | R_float_string | R_integer_string
  | R_sym_start | R_sym_part | R_sp | R_hsp | R_line_end
  | R_comment | R_line_comment | R_block_comment | R_WS | R_HWS
  | R_EOL | R_EOF | R_CYPHER | R_PROFILE | R_EXPLAIN
  | R_OR | R_XOR | R_AND | R_NOT | R_EQUAL
  | R_NEQUAL | R_PLUSEQUAL | R_LT | R_GT | R_LTE
  | R_GTE | R_PLUS | R_MINUS | R_MULT | R_DIV
  | R_MOD | R_POW | R_IN | R_REGEX | R_STARTS_WITH
  | R_ENDS_WITH | R_CONTAINS | R_IS_NULL | R_IS_NOT_NULL | R_DOT
  | R_DOT_STAR | R_COLON | R_SEMICOLON | R_COMMA | R_STAR
  | R_PIPE | R_DASH | R_LEFT_PAREN | R_RIGHT_PAREN | R_LEFT_SQ_PAREN
  | R_RIGHT_SQ_PAREN | R_LEFT_CURLY | R_RIGHT_CURLY | R_ELLIPSIS | R_LEFT_ARROW_HEAD
  | R_RIGHT_ARROW_HEAD | R_CREATE_CONSTRAINT_ON | R_CREATE_INDEX_ON | R_DROP_CONSTRAINT_ON | R_DROP_INDEX_ON
  | R_ASSERT | R_IS_UNIQUE | R_DROP | R_USING_PERIODIC_COMMIT | R_LOADCSV
  | R_START | R_MATCH | R_OPTIONAL_MATCH | R_UNWIND | R_MERGE
  | R_CREATE | R_CREATE_UNIQUE | R_SET | R_DELETE | R_DETACH_DELETE
  | R_REMOVE | R_FOREACH | R_WITH | R_CALL | R_RETURN
  | R_UNION | R_node | R_relationship | R_rel | R_USING_INDEX
  | R_USING_JOIN_ON | R_USING_SCAN | R_ON_MATCH | R_ON_CREATE | R_WHERE
  | R_AS | R_DISTINCT | R_YIELD | R_ORDER_BY | R_ASCENDING
  | R_ASC | R_DESCENDING | R_DESC | R_SKIP | R_LIMIT
  | R_CASE | R_WHEN | R_THEN | R_ELSE | R_END
  | R_FILTER | R_EXTRACT | R_REDUCE | R_ALL | R_ANY
  | R_SINGLE | R_NONE | R_WITH_HEADERS | R_FROM | R_FIELDTERMINATOR
  | R_TRUE | R_FALSE | R_NULL | R_SHORTESTPATH | R_ALLSHORTESTPATHS
  | R_WB | R_skip_to_directive | R_resync_directive | R_skip_to_statement | R_resync_statement
  | R_skip_to_clause | R_resync_clause | R__block_start_ | R__block_end_ | R__block_replace_
  | R__block_merge_ | R__empty_ | R__none_ | R__null_ | R__cut_
  | R__line_start_ | R__error_.

Definition cexp := pexp rule action pred.

(** leg: "v:name" compiles to a call of name followed by yyDo(yy, yySet, k, 0) *)
Definition bind (k : nat) (r : rule) : cexp := PRule r ⋅ PAct (TSet k).

(** leg: Rule_compile_c2 wraps a rule with variables in yyPush / yyPop *)
Definition with_vars (n : nat) (e : cexp) : cexp := PAct (TPush n) ⋅ e ⋅ PAct (TPop n).

(** parser.leg:26 *)
Definition g___entry_points : cexp :=
  PRule R_directive ∥ PRule R_statement.

(** parser.leg:29 *)
Definition g_directive : cexp :=
  PRule R_sp ⋅ PRule R__directive.

(** parser.leg:30-33 *)
Definition g__directive : cexp :=
  PRule R___directive ⋅ PAct (TDo [SFinished]) ∥ PRule R__error_ ⋅ (PRule R_EOF ∥
  PRule R_skip_to_directive) ⋅ PRule R__directive.

(** parser.leg:34-39; variables d=0 *)
Definition g___directive : cexp :=
  with_vars 1 (PRule R_EOF ⋅ PAct (TDo [SResult ANull]) ∥ PRule R_SEMICOLON ⋅
  PAct (TDo [SResult ANull]) ∥ bind 0 R_client_command ⋅ PAct (TDo [SResult (AVar 0)]) ∥
  bind 0 R_cypher_statement ⋅ PAct (TDo [SResult (AVar 0)])).

(** parser.leg:41 *)
Definition g_statement : cexp :=
  PRule R_sp ⋅ PRule R__statement.

(** parser.leg:42-45 *)
Definition g__statement : cexp :=
  PRule R___statement ⋅ PAct (TDo [SFinished]) ∥ PRule R__error_ ⋅ (PRule R_EOF ∥
  PRule R_skip_to_statement) ⋅ PRule R__statement.

(** parser.leg:46-50; variables d=0 *)
Definition g___statement : cexp :=
  with_vars 1 (PRule R_EOF ⋅ PAct (TDo [SResult ANull]) ∥ PRule R_SEMICOLON ⋅
  PAct (TDo [SResult ANull]) ∥ bind 0 R_cypher_statement ⋅ PAct (TDo [SResult (AVar 0)])).

(** parser.leg:57-58; variables b=0 *)
Definition g_cypher_statement : cexp :=
  with_vars 1 (PPred (QDo TBlockStart) ⋅ PStar (PRule R_statement_option) ⋅ PRule R_sp ⋅
  (bind 0 R_query ∥ bind 0 R_schema_command) ⋅ PPred (QDo TBlockEnd) ⋅
  PAct (TDo [SLet LRet (RMk K_statement [AVar 0])])).

(** parser.leg:59-62; variables o=0 *)
Definition g_statement_option : cexp :=
  with_vars 1 (PErr (bind 0 R_cypher_option ∥ bind 0 R_profile_option ∥
  bind 0 R_explain_option) (QErr (B "a statement option")) ⋅ PRule R_sp ⋅
  PAct (TDo [SSeqAdd (AVar 0)])).

(** parser.leg:64-67; variables v=0 p=1 *)
Definition g_cypher_option : cexp :=
  with_vars 2 (PPred (QDo TBlockStart) ⋅ PRule R_CYPHER ⋅ PRule R_sp ⋅
  (bind 0 R_cypher_version ∥ bind 0 R__null_) ⋅ PStar (PRule R_sp ⋅
  bind 1 R_cypher_param ⋅ PAct (TDo [SSeqAdd (AVar 1)])) ⋅ PPred (QDo TBlockEnd) ⋅
  PAct (TDo [SLet LRet (RMk K_cypher_option [AVar 0])])).

(** parser.leg:68-70 *)
Definition g_cypher_version : cexp :=
  PPred (QDo TBlockStart) ⋅ PErr (PPlus (PClass (B "0123456789")) ⋅ PRule R_DOT ⋅
  PPlus (PClass (B "0123456789"))) (QErr (B "a version number")) ⋅
  PPred (QDo TBlockEnd) ⋅ PAct (TDo [SLet LRet (RMk K_block_string [])]).

(** parser.leg:71-72; variables n=0 v=1 *)
Definition g_cypher_param : cexp :=
  with_vars 2 (PPred (QDo TBlockStart) ⋅ bind 0 R_cypher_param_name ⋅ PRule R_sp ⋅
  PRule R_EQUAL ⋅ PRule R_sp ⋅ bind 1 R_cypher_param_val ⋅ PPred (QDo TBlockEnd) ⋅
  PAct (TDo [SLet LRet (RMk K_cypher_option_param [AVar 0; AVar 1])])).

(** parser.leg:73 *)
Definition g_cypher_param_name : cexp :=
  PPred (QDo TBlockStart) ⋅
  PPlus (PClass (B "abcdefghijklmnopqrstuvwxyzABCDEFGHIJKLMNOPQRSTUVWXYZ0123456789_")) ⋅
  PPred (QDo TBlockEnd) ⋅ PAct (TDo [SLet LRet (RMk K_block_string [])]).

(** parser.leg:74 *)
Definition g_cypher_param_val : cexp :=
  PPred (QDo TBlockStart) ⋅ PPlus (PNot (PRule R_WS) ⋅ PDot) ⋅ PPred (QDo TBlockEnd) ⋅
  PAct (TDo [SLet LRet (RMk K_block_string [])]).

(** parser.leg:76 *)
Definition g_profile_option : cexp :=
  PPred (QDo TBlockStart) ⋅ PRule R_PROFILE ⋅ PPred (QDo TBlockEnd) ⋅
  PAct (TDo [SLet LRet (RMk K_profile_option [])]).

(** parser.leg:77 *)
Definition g_explain_option : cexp :=
  PPred (QDo TBlockStart) ⋅ PRule R_EXPLAIN ⋅ PPred (QDo TBlockEnd) ⋅
  PAct (TDo [SLet LRet (RMk K_explain_option [])]).

(** parser.leg:79-85 *)
Definition g_schema_command : cexp :=
  PErr (PRule R_create_index ∥ PRule R_create_constraint ∥ PRule R_drop_index ∥
  PRule R_drop_constraint) (QErr (B "a schema command")) ⋅ (PRule R_SEMICOLON ∥
  PRule R_EOF).

(** parser.leg:87-94; variables l=0 p=1 *)
Definition g_create_index : cexp :=
  with_vars 2 (PPred (QDo TBlockStart) ⋅ PRule R_CREATE_INDEX_ON ⋅ bind 0 R_label ⋅
  PRule R_LEFT_PAREN ⋅ PRule R_sp ⋅ bind 1 R_prop_name ⋅ PAct (TDo [SSeqAdd (AVar 1)]) ⋅
  PStar (PRule R_COMMA ⋅ PRule R_sp ⋅ bind 1 R_prop_name ⋅
  PAct (TDo [SSeqAdd (AVar 1)])) ⋅ PRule R_RIGHT_PAREN ⋅ PPred (QDo TBlockEnd) ⋅
  PAct (TDo [SLet LRet (RMk K_create_index [AVar 0])]) ⋅ PRule R_sp).

(** parser.leg:96-109; variables i=0 l=1 e=2 t=3 *)
Definition g_create_constraint : cexp :=
  with_vars 4 (PPred (QDo TBlockStart) ⋅ PRule R_CREATE_CONSTRAINT_ON ⋅
  (PRule R_LEFT_PAREN ⋅ PRule R_sp ⋅ bind 0 R_identifier ⋅ bind 1 R_label ⋅
  PRule R_RIGHT_PAREN ⋅ PRule R_sp ⋅ PRule R_ASSERT ⋅ (bind 2 R_expression ⋅
  PRule R_IS_UNIQUE ⋅ PPred (QDo TBlockEnd) ⋅
  PAct (TDo [SLet LRet (RMk (K_create_node_prop_constraint true) [AVar 0; AVar 1; AVar 2])]) ∥
  bind 2 R_expression ⋅ PPred (QDo TBlockEnd) ⋅
  PAct (TDo [SLet LRet (RMk (K_create_node_prop_constraint false) [AVar 0; AVar 1; AVar 2])])) ∥
  PRule R_LEFT_PAREN ⋅ PRule R_sp ⋅ PRule R_RIGHT_PAREN ⋅ PRule R_sp ⋅
  PQuery (PRule R_LEFT_ARROW_HEAD ⋅ PRule R_sp) ⋅ PRule R_DASH ⋅ PRule R_sp ⋅
  PRule R_LEFT_SQ_PAREN ⋅ PRule R_sp ⋅ bind 0 R_identifier ⋅ bind 3 R_rel_type ⋅
  PRule R_RIGHT_SQ_PAREN ⋅ PRule R_sp ⋅ PRule R_DASH ⋅ PRule R_sp ⋅
  PQuery (PRule R_RIGHT_ARROW_HEAD ⋅ PRule R_sp) ⋅ PRule R_LEFT_PAREN ⋅ PRule R_sp ⋅
  PRule R_RIGHT_PAREN ⋅ PRule R_sp ⋅ PRule R_ASSERT ⋅ bind 2 R_expression ⋅
  PPred (QDo TBlockEnd) ⋅
  PAct (TDo [SLet LRet (RMk (K_create_rel_prop_constraint false) [AVar 0; AVar 3; AVar 2])])) ⋅
  PRule R_sp).

(** parser.leg:111-118; variables l=0 p=1 *)
Definition g_drop_index : cexp :=
  with_vars 2 (PPred (QDo TBlockStart) ⋅ PRule R_DROP_INDEX_ON ⋅ bind 0 R_label ⋅
  PRule R_LEFT_PAREN ⋅ PRule R_sp ⋅ bind 1 R_prop_name ⋅ PAct (TDo [SSeqAdd (AVar 1)]) ⋅
  PStar (PRule R_COMMA ⋅ PRule R_sp ⋅ bind 1 R_prop_name ⋅
  PAct (TDo [SSeqAdd (AVar 1)])) ⋅ PRule R_RIGHT_PAREN ⋅ PPred (QDo TBlockEnd) ⋅
  PAct (TDo [SLet LRet (RMk K_drop_index [AVar 0])]) ⋅ PRule R_sp).

(** parser.leg:120-133; variables i=0 l=1 e=2 t=3 *)
Definition g_drop_constraint : cexp :=
  with_vars 4 (PPred (QDo TBlockStart) ⋅ PRule R_DROP_CONSTRAINT_ON ⋅
  (PRule R_LEFT_PAREN ⋅ PRule R_sp ⋅ bind 0 R_identifier ⋅ bind 1 R_label ⋅
  PRule R_RIGHT_PAREN ⋅ PRule R_sp ⋅ PRule R_ASSERT ⋅ (bind 2 R_expression ⋅
  PRule R_IS_UNIQUE ⋅ PPred (QDo TBlockEnd) ⋅
  PAct (TDo [SLet LRet (RMk (K_drop_node_prop_constraint true) [AVar 0; AVar 1; AVar 2])]) ∥
  bind 2 R_expression ⋅ PPred (QDo TBlockEnd) ⋅
  PAct (TDo [SLet LRet (RMk (K_drop_node_prop_constraint false) [AVar 0; AVar 1; AVar 2])])) ∥
  PRule R_LEFT_PAREN ⋅ PRule R_sp ⋅ PRule R_RIGHT_PAREN ⋅ PRule R_sp ⋅
  PQuery (PRule R_LEFT_ARROW_HEAD ⋅ PRule R_sp) ⋅ PRule R_DASH ⋅ PRule R_sp ⋅
  PRule R_LEFT_SQ_PAREN ⋅ PRule R_sp ⋅ bind 0 R_identifier ⋅ bind 3 R_rel_type ⋅
  PRule R_RIGHT_SQ_PAREN ⋅ PRule R_sp ⋅ PRule R_DASH ⋅ PRule R_sp ⋅
  PQuery (PRule R_RIGHT_ARROW_HEAD ⋅ PRule R_sp) ⋅ PRule R_LEFT_PAREN ⋅ PRule R_sp ⋅
  PRule R_RIGHT_PAREN ⋅ PRule R_sp ⋅ PRule R_ASSERT ⋅ bind 2 R_expression ⋅
  PPred (QDo TBlockEnd) ⋅
  PAct (TDo [SLet LRet (RMk (K_drop_rel_prop_constraint false) [AVar 0; AVar 3; AVar 2])])) ⋅
  PRule R_sp).

(** parser.leg:136 *)
Definition g_query : cexp :=
  PPred (QDo TBlockStart) ⋅ PStar (PRule R_query_hints) ⋅ PRule R_clauses ⋅
  PPred (QDo TBlockEnd) ⋅ PAct (TDo [SLet LRet (RMk K_query [])]).

(** parser.leg:137-139; variables c=0 *)
Definition g_query_hints : cexp :=
  with_vars 1 (PErr (bind 0 R_periodic_commit ⋅
  PAct (TDo [SSeqAdd (AVar 0)])) (QErr (B "a query hint"))).

(** parser.leg:140-142; variables c=0 *)
Definition g_clauses : cexp :=
  with_vars 1 (bind 0 R_clause ⋅ PAct (TDo [SSeqAdd (AVar 0)]) ⋅ PRule R__clauses).

(** parser.leg:143-149; variables c=0 *)
Definition g__clauses : cexp :=
  with_vars 1 (PRule R_SEMICOLON ∥ PRule R_EOF ∥ bind 0 R_clause ⋅
  PAct (TDo [SSeqAdd (AVar 0)]) ⋅ PRule R__cut_ ⋅ PRule R__clauses ∥ PRule R__error_ ⋅
  (PRule R_EOF ∥ PRule R_skip_to_clause) ⋅ PRule R_sp ⋅ PRule R__clauses).

(** parser.leg:151-152; variables l=0 *)
Definition g_periodic_commit : cexp :=
  with_vars 1 (PPred (QDo TBlockStart) ⋅ PRule R_USING_PERIODIC_COMMIT ⋅
  (bind 0 R_integer_literal ∥ bind 0 R__null_) ⋅ PPred (QDo TBlockEnd) ⋅
  PAct (TDo [SLet LRet (RMk K_using_periodic_commit [AVar 0])])).

(** parser.leg:154-169 *)
Definition g_clause : cexp :=
  PErr (PRule R_match_clause ∥ PRule R_return_clause ∥ PRule R_unwind_clause ∥
  PRule R_merge_clause ∥ PRule R_create_clause ∥ PRule R_set_clause ∥
  PRule R_delete_clause ∥ PRule R_remove_clause ∥ PRule R_with_clause ∥
  PRule R_foreach_clause ∥ PRule R_call_clause ∥ PRule R_loadcsv_clause ∥
  PRule R_start_clause ∥ PRule R_union_clause) (QErr (B "a clause")).

(** parser.leg:171-177; variables u=0 i=1 t=2 *)
Definition g_loadcsv_clause : cexp :=
  with_vars 3 (PPred (QDo TBlockStart) ⋅ PRule R_LOADCSV ⋅ PRule R_WITH_HEADERS ⋅
  PRule R_FROM ⋅ bind 0 R_expression ⋅ PRule R_AS ⋅ bind 1 R_identifier ⋅
  (PRule R_FIELDTERMINATOR ⋅ bind 2 R_string_literal ∥ bind 2 R__null_) ⋅
  PPred (QDo TBlockEnd) ⋅
  PAct (TDo [SLet LRet (RMk (K_load_csv true) [AVar 0; AVar 1; AVar 2])]) ∥
  PPred (QDo TBlockStart) ⋅ PRule R_LOADCSV ⋅ PRule R_FROM ⋅ bind 0 R_expression ⋅
  PRule R_AS ⋅ bind 1 R_identifier ⋅ (PRule R_FIELDTERMINATOR ⋅ bind 2 R_string_literal ∥
  bind 2 R__null_) ⋅ PPred (QDo TBlockEnd) ⋅
  PAct (TDo [SLet LRet (RMk (K_load_csv false) [AVar 0; AVar 1; AVar 2])])).

(** parser.leg:179-183; variables s=0 c=1 *)
Definition g_start_clause : cexp :=
  with_vars 2 (PPred (QDo TBlockStart) ⋅ PRule R_START ⋅ bind 0 R_start_point ⋅
  PRule R_sp ⋅ PAct (TDo [SSeqAdd (AVar 0)]) ⋅ PStar (PRule R_COMMA ⋅ PRule R_sp ⋅
  bind 0 R_start_point ⋅ PRule R_sp ⋅ PAct (TDo [SSeqAdd (AVar 0)])) ⋅ (PRule R_WHERE ⋅
  bind 1 R_expression ∥ bind 1 R__null_) ⋅ PPred (QDo TBlockEnd) ⋅
  PAct (TDo [SLet LRet (RMk K_start_clause [AVar 1])])).

(** parser.leg:184-210; variables i=0 x=1 p=2 l=3 *)
Definition g_start_point : cexp :=
  with_vars 4 (PPred (QDo TBlockStart) ⋅ bind 0 R_identifier ⋅ PRule R_EQUAL ⋅
  PRule R_sp ⋅ (PRule R_node ⋅ (PRule R_COLON ⋅ PRule R_sp ⋅ bind 1 R_index_name ⋅
  PRule R_LEFT_PAREN ⋅ PRule R_sp ⋅ (bind 2 R_prop_name ⋅ PRule R_EQUAL ⋅ PRule R_sp ⋅
  (bind 3 R_string_literal ∥ bind 3 R_parameter) ⋅ PRule R_RIGHT_PAREN ⋅
  PPred (QDo TBlockEnd) ⋅
  PAct (TDo [SLet LRet (RMk K_node_index_lookup [AVar 0; AVar 1; AVar 2; AVar 3])]) ∥
  (bind 3 R_string_literal ∥ bind 3 R_parameter) ⋅ PRule R_RIGHT_PAREN ⋅
  PPred (QDo TBlockEnd) ⋅
  PAct (TDo [SLet LRet (RMk K_node_index_query [AVar 0; AVar 1; AVar 3])])) ∥
  PRule R_LEFT_PAREN ⋅ PRule R_sp ⋅ (PRule R_node_ids ⋅ PRule R_RIGHT_PAREN ⋅
  PPred (QDo TBlockEnd) ⋅ PAct (TDo [SLet LRet (RMk K_node_id_lookup [AVar 0])]) ∥
  PRule R_STAR ⋅ PRule R_sp ⋅ PRule R_RIGHT_PAREN ⋅ PPred (QDo TBlockEnd) ⋅
  PAct (TDo [SLet LRet (RMk K_all_nodes_scan [AVar 0])]))) ∥ (PRule R_relationship ∥
  PRule R_rel) ⋅ (PRule R_COLON ⋅ PRule R_sp ⋅ bind 1 R_index_name ⋅ PRule R_LEFT_PAREN ⋅
  PRule R_sp ⋅ (bind 2 R_prop_name ⋅ PRule R_EQUAL ⋅ PRule R_sp ⋅
  (bind 3 R_string_literal ∥ bind 3 R_parameter) ⋅ PRule R_RIGHT_PAREN ⋅
  PPred (QDo TBlockEnd) ⋅
  PAct (TDo [SLet LRet (RMk K_rel_index_lookup [AVar 0; AVar 1; AVar 2; AVar 3])]) ∥
  (bind 3 R_string_literal ∥ bind 3 R_parameter) ⋅ PRule R_RIGHT_PAREN ⋅
  PPred (QDo TBlockEnd) ⋅
  PAct (TDo [SLet LRet (RMk K_rel_index_query [AVar 0; AVar 1; AVar 3])])) ∥
  PRule R_LEFT_PAREN ⋅ PRule R_sp ⋅ (PRule R_node_ids ⋅ PRule R_RIGHT_PAREN ⋅
  PPred (QDo TBlockEnd) ⋅ PAct (TDo [SLet LRet (RMk K_rel_id_lookup [AVar 0])]) ∥
  PRule R_STAR ⋅ PRule R_sp ⋅ PRule R_RIGHT_PAREN ⋅ PPred (QDo TBlockEnd) ⋅
  PAct (TDo [SLet LRet (RMk K_all_rels_scan [AVar 0])]))))).

(** parser.leg:212-215; variables i=0 *)
Definition g_node_ids : cexp :=
  with_vars 1 (bind 0 R_integer_literal ⋅ PAct (TDo [SSeqAdd (AVar 0)]) ⋅
  PStar (PRule R_COMMA ⋅ PRule R_sp ⋅ bind 0 R_integer_literal ⋅
  PAct (TDo [SSeqAdd (AVar 0)]))).

(** parser.leg:217-225; variables p=0 h=1 c=2 *)
Definition g_match_clause : cexp :=
  with_vars 3 (PPred (QDo TBlockStart) ⋅ PRule R_OPTIONAL_MATCH ⋅ bind 0 R_pattern ⋅
  PStar (bind 1 R_hint ⋅ PAct (TDo [SSeqAdd (AVar 1)])) ⋅ (PRule R_WHERE ⋅
  bind 2 R_expression ∥ bind 2 R__null_) ⋅ PPred (QDo TBlockEnd) ⋅
  PAct (TDo [SLet LRet (RMk (K_match_clause true) [AVar 0; AVar 2])]) ∥
  PPred (QDo TBlockStart) ⋅ PRule R_MATCH ⋅ bind 0 R_pattern ⋅ PStar (bind 1 R_hint ⋅
  PAct (TDo [SSeqAdd (AVar 1)])) ⋅ (PRule R_WHERE ⋅ bind 2 R_expression ∥
  bind 2 R__null_) ⋅ PPred (QDo TBlockEnd) ⋅
  PAct (TDo [SLet LRet (RMk (K_match_clause false) [AVar 0; AVar 2])])).

(** parser.leg:227-235; variables i=0 l=1 p=2 *)
Definition g_hint : cexp :=
  with_vars 3 (PPred (QDo TBlockStart) ⋅ PRule R_USING_INDEX ⋅ bind 0 R_identifier ⋅
  bind 1 R_label ⋅ PRule R_LEFT_PAREN ⋅ PRule R_sp ⋅ bind 2 R_prop_name ⋅
  PRule R_RIGHT_PAREN ⋅ PRule R_sp ⋅ PPred (QDo TBlockEnd) ⋅
  PAct (TDo [SLet LRet (RMk K_using_index [AVar 0; AVar 1; AVar 2])]) ∥
  PPred (QDo TBlockStart) ⋅ PRule R_USING_JOIN_ON ⋅ bind 0 R_identifier ⋅
  PAct (TDo [SSeqAdd (AVar 0)]) ⋅ PStar (PRule R_COMMA ⋅ PRule R_sp ⋅
  bind 0 R_identifier ⋅ PAct (TDo [SSeqAdd (AVar 0)])) ⋅ PPred (QDo TBlockEnd) ⋅
  PAct (TDo [SLet LRet (RMk K_using_join [])]) ∥ PPred (QDo TBlockStart) ⋅
  PRule R_USING_SCAN ⋅ bind 0 R_identifier ⋅ bind 1 R_label ⋅ PPred (QDo TBlockEnd) ⋅
  PAct (TDo [SLet LRet (RMk K_using_scan [AVar 0; AVar 1])])).

(** parser.leg:237-241; variables p=0 a=1 *)
Definition g_merge_clause : cexp :=
  with_vars 2 (PPred (QDo TBlockStart) ⋅ PRule R_MERGE ⋅ bind 0 R_pattern_part ⋅
  PRule R_sp ⋅ PStar (bind 1 R_merge_action ⋅ PAct (TDo [SSeqAdd (AVar 1)])) ⋅
  PPred (QDo TBlockEnd) ⋅ PAct (TDo [SLet LRet (RMk K_merge_clause [AVar 0])]) ⋅
  PRule R_sp).

(** parser.leg:243-245 *)
Definition g_merge_action : cexp :=
  PPred (QDo TBlockStart) ⋅ PRule R_ON_MATCH ⋅ PRule R_merge_action_set ⋅
  PPred (QDo TBlockEnd) ⋅ PAct (TDo [SLet LRet (RMk K_on_match [])]) ∥
  PPred (QDo TBlockStart) ⋅ PRule R_ON_CREATE ⋅ PRule R_merge_action_set ⋅
  PPred (QDo TBlockEnd) ⋅ PAct (TDo [SLet LRet (RMk K_on_create [])]).

(** parser.leg:246-249; variables i=0 *)
Definition g_merge_action_set : cexp :=
  with_vars 1 (PErr (PRule R_SET) (QErr (B "SET")) ⋅ bind 0 R_set_item ⋅
  PAct (TDo [SSeqAdd (AVar 0)]) ⋅ PStar (PRule R_COMMA ⋅ PRule R_sp ⋅ bind 0 R_set_item ⋅
  PAct (TDo [SSeqAdd (AVar 0)]))).

(** parser.leg:251-253; variables p=0 *)
Definition g_create_clause : cexp :=
  with_vars 1 (PPred (QDo TBlockStart) ⋅ PRule R_CREATE_UNIQUE ⋅ bind 0 R_pattern ⋅
  PPred (QDo TBlockEnd) ⋅ PAct (TDo [SLet LRet (RMk (K_create_clause true) [AVar 0])]) ∥
  PPred (QDo TBlockStart) ⋅ PRule R_CREATE ⋅ bind 0 R_pattern ⋅ PPred (QDo TBlockEnd) ⋅
  PAct (TDo [SLet LRet (RMk (K_create_clause false) [AVar 0])])).

(** parser.leg:255-258; variables i=0 *)
Definition g_set_clause : cexp :=
  with_vars 1 (PPred (QDo TBlockStart) ⋅ PRule R_SET ⋅ bind 0 R_set_item ⋅
  PAct (TDo [SSeqAdd (AVar 0)]) ⋅ PStar (PRule R_COMMA ⋅ PRule R_sp ⋅ bind 0 R_set_item ⋅
  PAct (TDo [SSeqAdd (AVar 0)])) ⋅ PPred (QDo TBlockEnd) ⋅
  PAct (TDo [SLet LRet (RMk K_set_clause [])])).

(** parser.leg:260-268; variables p=0 e=1 i=2 l=3 *)
Definition g_set_item : cexp :=
  with_vars 4 (PPred (QDo TBlockStart) ⋅ bind 0 R_property_expression ⋅ PRule R_EQUAL ⋅
  PRule R_sp ⋅ bind 1 R_expression ⋅ PPred (QDo TBlockEnd) ⋅
  PAct (TDo [SLet LRet (RMk K_set_property [AVar 0; AVar 1])]) ∥
  PPred (QDo TBlockStart) ⋅ bind 2 R_identifier ⋅ PRule R_EQUAL ⋅ PRule R_sp ⋅
  bind 1 R_expression ⋅ PPred (QDo TBlockEnd) ⋅
  PAct (TDo [SLet LRet (RMk K_set_all_properties [AVar 2; AVar 1])]) ∥
  PPred (QDo TBlockStart) ⋅ bind 2 R_identifier ⋅ PRule R_PLUSEQUAL ⋅ PRule R_sp ⋅
  bind 1 R_expression ⋅ PPred (QDo TBlockEnd) ⋅
  PAct (TDo [SLet LRet (RMk K_merge_properties [AVar 2; AVar 1])]) ∥
  PPred (QDo TBlockStart) ⋅ bind 2 R_identifier ⋅ PPlus (bind 3 R_label ⋅
  PAct (TDo [SSeqAdd (AVar 3)])) ⋅ PPred (QDo TBlockEnd) ⋅
  PAct (TDo [SLet LRet (RMk K_set_labels [AVar 2])])).

(** parser.leg:270-276; variables e=0 *)
Definition g_delete_clause : cexp :=
  with_vars 1 (PPred (QDo TBlockStart) ⋅ PRule R_DETACH_DELETE ⋅ bind 0 R_expression ⋅
  PAct (TDo [SSeqAdd (AVar 0)]) ⋅ PStar (PRule R_COMMA ⋅ PRule R_sp ⋅
  bind 0 R_expression ⋅ PAct (TDo [SSeqAdd (AVar 0)])) ⋅ PPred (QDo TBlockEnd) ⋅
  PAct (TDo [SLet LRet (RMk (K_delete true) [])]) ∥ PPred (QDo TBlockStart) ⋅
  PRule R_DELETE ⋅ bind 0 R_expression ⋅ PAct (TDo [SSeqAdd (AVar 0)]) ⋅
  PStar (PRule R_COMMA ⋅ PRule R_sp ⋅ bind 0 R_expression ⋅
  PAct (TDo [SSeqAdd (AVar 0)])) ⋅ PPred (QDo TBlockEnd) ⋅
  PAct (TDo [SLet LRet (RMk (K_delete false) [])])).

(** parser.leg:278-281; variables i=0 *)
Definition g_remove_clause : cexp :=
  with_vars 1 (PPred (QDo TBlockStart) ⋅ PRule R_REMOVE ⋅ bind 0 R_remove_item ⋅
  PAct (TDo [SSeqAdd (AVar 0)]) ⋅ PStar (PRule R_COMMA ⋅ PRule R_sp ⋅
  bind 0 R_remove_item ⋅ PAct (TDo [SSeqAdd (AVar 0)])) ⋅ PPred (QDo TBlockEnd) ⋅
  PAct (TDo [SLet LRet (RMk K_remove_clause [])])).

(** parser.leg:283-286; variables p=0 i=1 l=2 *)
Definition g_remove_item : cexp :=
  with_vars 3 (PPred (QDo TBlockStart) ⋅ bind 0 R_property_expression ⋅
  PPred (QDo TBlockEnd) ⋅ PAct (TDo [SLet LRet (RMk K_remove_property [AVar 0])]) ∥
  PPred (QDo TBlockStart) ⋅ bind 1 R_identifier ⋅ PPlus (bind 2 R_label ⋅
  PAct (TDo [SSeqAdd (AVar 2)])) ⋅ PPred (QDo TBlockEnd) ⋅
  PAct (TDo [SLet LRet (RMk K_remove_labels [AVar 1])])).

(** parser.leg:288-292; variables i=0 e=1 c=2 *)
Definition g_foreach_clause : cexp :=
  with_vars 3 (PPred (QDo TBlockStart) ⋅ PRule R_FOREACH ⋅ PRule R_LEFT_PAREN ⋅
  PRule R_sp ⋅ bind 0 R_identifier ⋅ PRule R_IN ⋅ PRule R_sp ⋅ bind 1 R_expression ⋅
  PRule R_PIPE ⋅ PRule R_sp ⋅ PPlus (bind 2 R_clause ⋅ PAct (TDo [SSeqAdd (AVar 2)])) ⋅
  PRule R_RIGHT_PAREN ⋅ PPred (QDo TBlockEnd) ⋅
  PAct (TDo [SLet LRet (RMk K_foreach_clause [AVar 0; AVar 1])]) ⋅ PRule R_sp).

(** parser.leg:294-316; variables o=0 s=1 l=2 p=3 i=4 *)
Definition g_with_clause : cexp :=
  with_vars 5 (PPred (QDo TBlockStart) ⋅ PRule R_WITH ⋅ (PRule R_DISTINCT ⋅
  PRule R_STAR ⋅ PRule R_sp ⋅ PRule R_additional_with_projections ⋅ (bind 0 R_order_by ∥
  bind 0 R__null_) ⋅ (bind 1 R_skip ∥ bind 1 R__null_) ⋅ (bind 2 R_limit ∥
  bind 2 R__null_) ⋅ (PRule R_WHERE ⋅ bind 3 R_expression ∥ bind 3 R__null_) ⋅
  PPred (QDo TBlockEnd) ⋅
  PAct (TDo [SLet LRet (RMk (K_with_clause true true) [AVar 0; AVar 1; AVar 2; AVar 3])]) ∥
  PRule R_DISTINCT ⋅ bind 4 R_with_projection ⋅ PAct (TDo [SSeqAdd (AVar 4)]) ⋅
  PRule R_additional_with_projections ⋅ (bind 0 R_order_by ∥ bind 0 R__null_) ⋅
  (bind 1 R_skip ∥ bind 1 R__null_) ⋅ (bind 2 R_limit ∥ bind 2 R__null_) ⋅
  (PRule R_WHERE ⋅ bind 3 R_expression ∥ bind 3 R__null_) ⋅ PPred (QDo TBlockEnd) ⋅
  PAct (TDo [SLet LRet (RMk (K_with_clause true false) [AVar 0; AVar 1; AVar 2; AVar 3])]) ∥
  PRule R_STAR ⋅ PRule R_sp ⋅ PRule R_additional_with_projections ⋅ (bind 0 R_order_by ∥
  bind 0 R__null_) ⋅ (bind 1 R_skip ∥ bind 1 R__null_) ⋅ (bind 2 R_limit ∥
  bind 2 R__null_) ⋅ (PRule R_WHERE ⋅ bind 3 R_expression ∥ bind 3 R__null_) ⋅
  PPred (QDo TBlockEnd) ⋅
  PAct (TDo [SLet LRet (RMk (K_with_clause false true) [AVar 0; AVar 1; AVar 2; AVar 3])]) ∥
  bind 4 R_with_projection ⋅ PAct (TDo [SSeqAdd (AVar 4)]) ⋅
  PRule R_additional_with_projections ⋅ (bind 0 R_order_by ∥ bind 0 R__null_) ⋅
  (bind 1 R_skip ∥ bind 1 R__null_) ⋅ (bind 2 R_limit ∥ bind 2 R__null_) ⋅
  (PRule R_WHERE ⋅ bind 3 R_expression ∥ bind 3 R__null_) ⋅ PPred (QDo TBlockEnd) ⋅
  PAct (TDo [SLet LRet (RMk (K_with_clause false false) [AVar 0; AVar 1; AVar 2; AVar 3])]))).

(** parser.leg:317-319; variables i=0 *)
Definition g_additional_with_projections : cexp :=
  with_vars 1 (PStar (PRule R_COMMA ⋅ PRule R_sp ⋅ bind 0 R_with_projection ⋅
  PAct (TDo [SSeqAdd (AVar 0)]))).

(** parser.leg:321-325; variables e=0 i=1 *)
Definition g_with_projection : cexp :=
  with_vars 2 (PPred (QDo TBlockStart) ⋅ bind 0 R_expression ⋅ (PRule R_AS ⋅
  bind 1 R_identifier ⋅ PPred (QDo TBlockEnd) ⋅
  PAct (TDo [SLet LRet (RMk K_projection [AVar 0; AVar 1])]) ∥ PRule R__empty_ ⋅
  PPred (QDo TBlockEnd) ⋅ PAct (TDo [SLet LRet (RMk K_projection [AVar 0; ANull])]))).

(** parser.leg:327-328; variables e=0 i=1 *)
Definition g_unwind_clause : cexp :=
  with_vars 2 (PPred (QDo TBlockStart) ⋅ PRule R_UNWIND ⋅ bind 0 R_expression ⋅
  PRule R_AS ⋅ bind 1 R_identifier ⋅ PPred (QDo TBlockEnd) ⋅
  PAct (TDo [SLet LRet (RMk K_unwind_clause [AVar 0; AVar 1])])).

(** parser.leg:334-351; variables p=0 e=1 r=2 w=3 *)
Definition g_call_clause : cexp :=
  with_vars 4 (PPred (QDo TBlockStart) ⋅ PRule R_CALL ⋅ bind 0 R_proc_name ⋅
  PQuery (PRule R_LEFT_PAREN ⋅ PRule R_sp ⋅ PQuery (bind 1 R_expression ⋅
  PAct (TDo [SSeqAdd (AVar 1)]) ⋅ PStar (PRule R_COMMA ⋅ PRule R_sp ⋅
  bind 1 R_expression ⋅ PAct (TDo [SSeqAdd (AVar 1)]))) ⋅ PRule R_RIGHT_PAREN ⋅
  PRule R_sp) ⋅ PQuery (PRule R_YIELD ⋅ (bind 2 R_proc_projection ⋅
  PAct (TDo [SSeqAdd (AVar 2)]) ⋅ PStar (PRule R_COMMA ⋅ PRule R_sp ⋅
  bind 2 R_proc_projection ⋅ PAct (TDo [SSeqAdd (AVar 2)])) ∥ PChar "-"%char) ⋅
  PRule R_sp) ⋅ (PRule R_WHERE ⋅ bind 3 R_expression ∥ bind 3 R__null_) ⋅
  PPred (QDo TBlockEnd) ⋅ PAct (TDo [SLet LRet (RMk K_call_clause [AVar 0; AVar 3])])).

(** parser.leg:353-356; variables r=0 i=1 *)
Definition g_proc_projection : cexp :=
  with_vars 2 (PPred (QDo TBlockStart) ⋅ bind 0 R_identifier ⋅ (PRule R_AS ⋅
  bind 1 R_identifier ⋅ PPred (QDo TBlockEnd) ⋅
  PAct (TDo [SLet LRet (RMk K_projection [AVar 0; AVar 1])]) ∥ PRule R__empty_ ⋅
  PPred (QDo TBlockEnd) ⋅ PAct (TDo [SLet LRet (RMk K_projection [AVar 0; ANull])]))).

(** parser.leg:358-375; variables o=0 s=1 l=2 i=3 *)
Definition g_return_clause : cexp :=
  with_vars 4 (PPred (QDo TBlockStart) ⋅ PRule R_RETURN ⋅ (PRule R_DISTINCT ⋅
  PRule R_STAR ⋅ PRule R_sp ⋅ PRule R_additional_return_projections ⋅
  (bind 0 R_order_by ∥ bind 0 R__null_) ⋅ (bind 1 R_skip ∥ bind 1 R__null_) ⋅
  (bind 2 R_limit ∥ bind 2 R__null_) ⋅ PPred (QDo TBlockEnd) ⋅
  PAct (TDo [SLet LRet (RMk (K_return_clause true true) [AVar 0; AVar 1; AVar 2])]) ∥
  PRule R_DISTINCT ⋅ bind 3 R_return_projection ⋅ PAct (TDo [SSeqAdd (AVar 3)]) ⋅
  PRule R_additional_return_projections ⋅ (bind 0 R_order_by ∥ bind 0 R__null_) ⋅
  (bind 1 R_skip ∥ bind 1 R__null_) ⋅ (bind 2 R_limit ∥ bind 2 R__null_) ⋅
  PPred (QDo TBlockEnd) ⋅
  PAct (TDo [SLet LRet (RMk (K_return_clause true false) [AVar 0; AVar 1; AVar 2])]) ∥
  PRule R_STAR ⋅ PRule R_sp ⋅ PRule R_additional_return_projections ⋅
  (bind 0 R_order_by ∥ bind 0 R__null_) ⋅ (bind 1 R_skip ∥ bind 1 R__null_) ⋅
  (bind 2 R_limit ∥ bind 2 R__null_) ⋅ PPred (QDo TBlockEnd) ⋅
  PAct (TDo [SLet LRet (RMk (K_return_clause false true) [AVar 0; AVar 1; AVar 2])]) ∥
  bind 3 R_return_projection ⋅ PAct (TDo [SSeqAdd (AVar 3)]) ⋅
  PRule R_additional_return_projections ⋅ (bind 0 R_order_by ∥ bind 0 R__null_) ⋅
  (bind 1 R_skip ∥ bind 1 R__null_) ⋅ (bind 2 R_limit ∥ bind 2 R__null_) ⋅
  PPred (QDo TBlockEnd) ⋅
  PAct (TDo [SLet LRet (RMk (K_return_clause false false) [AVar 0; AVar 1; AVar 2])]))).

(** parser.leg:376-378; variables i=0 *)
Definition g_additional_return_projections : cexp :=
  with_vars 1 (PStar (PRule R_COMMA ⋅ PRule R_sp ⋅ bind 0 R_return_projection ⋅
  PAct (TDo [SSeqAdd (AVar 0)]))).

(** parser.leg:380-389; variables e=0 i=1 *)
Definition g_return_projection : cexp :=
  with_vars 2 (PPred (QDo TBlockStart) ⋅ PRule R__block_start_ ⋅ bind 0 R_expression ⋅
  (PRule R_AS ⋅ bind 1 R_identifier ⋅ PRule R__block_merge_ ∥ bind 1 R__null_ ⋅
  PRule R__block_merge_ ⋅
  PAct (TDo [SIfNotIdent (AVar 0) (SLet (LVar 1) (RMk K_block_identifier []))])) ⋅
  PPred (QDo TBlockEnd) ⋅ PAct (TDo [SLet LRet (RMk K_projection [AVar 0; AVar 1])])).

(** parser.leg:391-393; variables s=0 *)
Definition g_order_by : cexp :=
  with_vars 1 (PPred (QDo TBlockStart) ⋅ PRule R_ORDER_BY ⋅ bind 0 R_sort_item ⋅
  PAct (TDo [SSeqAdd (AVar 0)]) ⋅ PStar (PRule R_COMMA ⋅ PRule R_sp ⋅
  bind 0 R_sort_item ⋅ PAct (TDo [SSeqAdd (AVar 0)])) ⋅ PPred (QDo TBlockEnd) ⋅
  PAct (TDo [SLet LRet (RMk K_order_by [])])).

(** parser.leg:395-399; variables e=0 *)
Definition g_sort_item : cexp :=
  with_vars 1 (PPred (QDo TBlockStart) ⋅ bind 0 R_expression ⋅ ((PRule R_DESCENDING ∥
  PRule R_DESC) ⋅ PPred (QDo TBlockEnd) ⋅
  PAct (TDo [SLet LRet (RMk (K_sort_item false) [AVar 0])]) ∥ PQuery (PRule R_ASCENDING ∥
  PRule R_ASC) ⋅ PPred (QDo TBlockEnd) ⋅
  PAct (TDo [SLet LRet (RMk (K_sort_item true) [AVar 0])]))).

(** parser.leg:401; variables e=0 *)
Definition g_skip : cexp :=
  with_vars 1 (PRule R_SKIP ⋅ bind 0 R_expression ⋅
  PAct (TDo [SLet LRet (RArg (AVar 0))])).

(** parser.leg:402; variables e=0 *)
Definition g_limit : cexp :=
  with_vars 1 (PRule R_LIMIT ⋅ bind 0 R_expression ⋅
  PAct (TDo [SLet LRet (RArg (AVar 0))])).

(** parser.leg:404-408 *)
Definition g_union_clause : cexp :=
  PPred (QDo TBlockStart) ⋅ PRule R_UNION ⋅ (PRule R_ALL ⋅ PPred (QDo TBlockEnd) ⋅
  PAct (TDo [SLet LRet (RMk (K_union_clause true) [])]) ∥ PRule R__empty_ ⋅
  PPred (QDo TBlockEnd) ⋅ PAct (TDo [SLet LRet (RMk (K_union_clause false) [])])).

(** parser.leg:416-417; variables e=0 *)
Definition g_expression : cexp :=
  with_vars 1 (PPred (QPrecPushTop) ⋅ PErr (bind 0 R__expression) (QPrecPop) ⋅
  PPred (QPrecPop) ⋅ PAct (TDo [SLet LRet (RArg (AVar 0))])).

(** parser.leg:418-419; variables e=0 *)
Definition g__prec_expression : cexp :=
  with_vars 1 (PPred (QPrecPush) ⋅ PErr (bind 0 R__expression) (QPrecPop) ⋅
  PPred (QPrecPop) ⋅ PAct (TDo [SLet LRet (RArg (AVar 0))])).

(** parser.leg:420-450; variables l=0 n=1 r=2 s=3 e=4 m=5 *)
Definition g__expression : cexp :=
  with_vars 6 (PRule R__block_start_ ⋅ bind 0 R__atom ⋅ PPlus (PRule R_DOT ⋅
  PPred (QOp OP_PROPERTY) ⋅ PPred (QPrecChk) ⋅ PRule R_sp ⋅ bind 1 R_prop_name ⋅
  PRule R__block_replace_ ⋅
  PAct (TDo [SLet (LVar 0) (RMk K_property_operator [AVar 0; AVar 1])]) ∥
  PRule R_INFIX_OP ⋅ PPred (QPrecChk) ⋅ PRule R_sp ⋅ bind 2 R__prec_expression ⋅
  PRule R__block_replace_ ⋅
  PAct (TDo [SLet (LVar 0) (RMk K_binary_operator [AVar 0; AVar 2])]) ∥
  PAct (TDo [SSeqAdd (AVar 0)]) ⋅ PPlus (PRule R_COMPARISON_OP ⋅ PPred (QPrecChk) ⋅
  PRule R_sp ⋅ bind 2 R__prec_expression ⋅ PAct (TDo [SSeqAdd (AVar 2)])) ⋅
  PRule R__block_replace_ ⋅ PAct (TDo [SLet (LVar 0) (RMk K_comparison_operator [])]) ∥
  PRule R_POSTFIX_OP ⋅ PPred (QPrecChk) ⋅ PRule R__block_replace_ ⋅
  PAct (TDo [SLet (LVar 0) (RMk K_unary_operator [AVar 0])]) ∥ PRule R_LEFT_SQ_PAREN ⋅
  PPred (QOp OP_SUBSCRIPT) ⋅ PPred (QPrecChk) ⋅ PRule R_sp ⋅ bind 2 R_expression ⋅
  PRule R_RIGHT_SQ_PAREN ⋅ PRule R_sp ⋅ PRule R__block_replace_ ⋅
  PAct (TDo [SLet (LVar 0) (RMk K_subscript_operator [AVar 0; AVar 2])]) ∥
  PRule R_LEFT_SQ_PAREN ⋅ PPred (QOp OP_SUBSCRIPT) ⋅ PPred (QPrecChk) ⋅ PRule R_sp ⋅
  (bind 3 R_expression ∥ bind 3 R__null_) ⋅ PRule R_ELLIPSIS ⋅ PRule R_sp ⋅
  (bind 4 R_expression ∥ bind 4 R__null_) ⋅ PRule R_RIGHT_SQ_PAREN ⋅ PRule R_sp ⋅
  PRule R__block_replace_ ⋅
  PAct (TDo [SLet (LVar 0) (RMk K_slice_operator [AVar 0; AVar 3; AVar 4])]) ∥
  PRule R_LEFT_CURLY ⋅ PPred (QOp OP_MAP_PROJECTION) ⋅ PPred (QPrecChk) ⋅ PRule R_sp ⋅
  PQuery (bind 5 R_map_projection_element ⋅ PAct (TDo [SSeqAdd (AVar 5)]) ⋅
  PStar (PRule R_COMMA ⋅ PRule R_sp ⋅ bind 5 R_map_projection_element ⋅
  PAct (TDo [SSeqAdd (AVar 5)]))) ⋅ PRule R_RIGHT_CURLY ⋅ PRule R_sp ⋅
  PRule R__block_replace_ ⋅ PAct (TDo [SLet (LVar 0) (RMk K_map_projection [AVar 0])]) ∥
  PPlus (PPred (QOp OP_LABEL) ⋅ PPred (QPrecChk) ⋅ bind 1 R_label ⋅
  PAct (TDo [SSeqAdd (AVar 1)])) ⋅ PRule R__block_replace_ ⋅
  PAct (TDo [SLet (LVar 0) (RMk K_labels_operator [AVar 0])])) ⋅ PRule R__block_merge_ ⋅
  PAct (TDo [SLet LRet (RArg (AVar 0))]) ∥ PRule R__atom).

(** parser.leg:451-454; variables r=0 *)
Definition g__atom : cexp :=
  with_vars 1 (PRule R__block_start_ ⋅ PRule R_PREFIX_OP ⋅ PRule R_sp ⋅
  bind 0 R__prec_expression ⋅ PRule R__block_end_ ⋅
  PAct (TDo [SLet LRet (RMk K_unary_operator [AVar 0])]) ∥ PRule R_atom).

(** parser.leg:456-461; variables p=0 e=1 i=2 *)
Definition g_map_projection_element : cexp :=
  with_vars 3 (PPred (QDo TBlockStart) ⋅ bind 0 R_prop_name ⋅ PRule R_COLON ⋅
  PRule R_sp ⋅ bind 1 R_expression ⋅ PPred (QDo TBlockEnd) ⋅
  PAct (TDo [SLet LRet (RMk K_map_projection_literal [AVar 0; AVar 1])]) ∥
  PPred (QDo TBlockStart) ⋅ PRule R_DOT ⋅ PRule R_sp ⋅ bind 0 R_prop_name ⋅
  PPred (QDo TBlockEnd) ⋅
  PAct (TDo [SLet LRet (RMk K_map_projection_property [AVar 0])]) ∥
  PPred (QDo TBlockStart) ⋅ bind 2 R_identifier ⋅ PPred (QDo TBlockEnd) ⋅
  PAct (TDo [SLet LRet (RMk K_map_projection_identifier [AVar 2])]) ∥
  PPred (QDo TBlockStart) ⋅ PRule R_DOT_STAR ⋅ PRule R_sp ⋅ PPred (QDo TBlockEnd) ⋅
  PAct (TDo [SLet LRet (RMk K_map_projection_all_properties [])])).

(** parser.leg:463-487; variables e=0 *)
Definition g_atom : cexp :=
  with_vars 1 (PRule R_true_literal ∥ PRule R_false_literal ∥ PRule R_null_literal ∥
  PRule R_string_literal ∥ PRule R_float_literal ∥ PRule R_integer_literal ∥
  PRule R_list_comprehension ∥ PRule R_pattern_comprehension ∥
  PRule R_collection_literal ∥ PRule R_parameter ∥ PRule R_map_literal ∥
  PRule R_case_expression ∥ PRule R_filter_expression ∥ PRule R_extract_expression ∥
  PRule R_reduce_expression ∥ PRule R_all_predicate ∥ PRule R_any_predicate ∥
  PRule R_none_predicate ∥ PRule R_single_predicate ∥ PRule R_pattern_expression ∥
  PRule R_LEFT_PAREN ⋅ PRule R_sp ⋅ bind 0 R_expression ⋅ PRule R_RIGHT_PAREN ⋅
  PRule R_sp ⋅ PAct (TDo [SLet LRet (RArg (AVar 0))]) ∥ PRule R_function_application ∥
  PRule R_identifier).

(** parser.leg:489-492; variables p=0 n=1 *)
Definition g_property_expression : cexp :=
  with_vars 2 (PRule R__block_start_ ⋅ bind 0 R_atom ⋅ PPlus (PRule R_DOT ⋅ PRule R_sp ⋅
  bind 1 R_prop_name ⋅ PRule R__block_replace_ ⋅
  PAct (TDo [SLet (LVar 0) (RMk K_property_operator [AVar 0; AVar 1])])) ⋅
  PRule R__block_merge_ ⋅ PAct (TDo [SLet LRet (RArg (AVar 0))])).

(** parser.leg:497-501 *)
Definition g_PREFIX_OP : cexp :=
  (PRule R_NOT ⋅ PPred (QOp OP_NOT) ⋅ PAct (TDo [SOpPush OP_NOT]) ∥ PRule R_PLUS ⋅
  PPred (QOp OP_UNARY_PLUS) ⋅ PAct (TDo [SOpPush OP_UNARY_PLUS]) ∥ PRule R_MINUS ⋅
  PPred (QOp OP_UNARY_MINUS) ⋅ PAct (TDo [SOpPush OP_UNARY_MINUS])) ⋅ PRule R_sp.

(** parser.leg:503-506 *)
Definition g_POSTFIX_OP : cexp :=
  (PRule R_IS_NULL ⋅ PPred (QOp OP_IS_NULL) ⋅ PAct (TDo [SOpPush OP_IS_NULL]) ∥
  PRule R_IS_NOT_NULL ⋅ PPred (QOp OP_IS_NOT_NULL) ⋅
  PAct (TDo [SOpPush OP_IS_NOT_NULL])) ⋅ PRule R_sp.

(** parser.leg:508-526 *)
Definition g_INFIX_OP : cexp :=
  (PRule R_AND ⋅ PPred (QOp OP_AND) ⋅ PAct (TDo [SOpPush OP_AND]) ∥ PRule R_OR ⋅
  PPred (QOp OP_OR) ⋅ PAct (TDo [SOpPush OP_OR]) ∥ PRule R_XOR ⋅ PPred (QOp OP_XOR) ⋅
  PAct (TDo [SOpPush OP_XOR]) ∥ PRule R_NOT ⋅ PPred (QOp OP_NOT) ⋅
  PAct (TDo [SOpPush OP_NOT]) ∥ PRule R_REGEX ⋅ PPred (QOp OP_REGEX) ⋅
  PAct (TDo [SOpPush OP_REGEX]) ∥ PRule R_EQUAL ⋅ PPred (QOp OP_EQUAL) ⋅
  PAct (TDo [SOpPush OP_EQUAL]) ∥ PRule R_NEQUAL ⋅ PPred (QOp OP_NEQUAL) ⋅
  PAct (TDo [SOpPush OP_NEQUAL]) ∥ PRule R_PLUS ⋅ PPred (QOp OP_PLUS) ⋅
  PAct (TDo [SOpPush OP_PLUS]) ∥ PRule R_MINUS ⋅ PPred (QOp OP_MINUS) ⋅
  PAct (TDo [SOpPush OP_MINUS]) ∥ PRule R_MULT ⋅ PPred (QOp OP_MULT) ⋅
  PAct (TDo [SOpPush OP_MULT]) ∥ PRule R_DIV ⋅ PPred (QOp OP_DIV) ⋅
  PAct (TDo [SOpPush OP_DIV]) ∥ PRule R_MOD ⋅ PPred (QOp OP_MOD) ⋅
  PAct (TDo [SOpPush OP_MOD]) ∥ PRule R_POW ⋅ PPred (QOp OP_POW) ⋅
  PAct (TDo [SOpPush OP_POW]) ∥ PRule R_IN ⋅ PPred (QOp OP_IN) ⋅
  PAct (TDo [SOpPush OP_IN]) ∥ PRule R_CONTAINS ⋅ PPred (QOp OP_CONTAINS) ⋅
  PAct (TDo [SOpPush OP_CONTAINS]) ∥ PRule R_STARTS_WITH ⋅ PPred (QOp OP_STARTS_WITH) ⋅
  PAct (TDo [SOpPush OP_STARTS_WITH]) ∥ PRule R_ENDS_WITH ⋅ PPred (QOp OP_ENDS_WITH) ⋅
  PAct (TDo [SOpPush OP_ENDS_WITH])) ⋅ PRule R_sp.

(** parser.leg:528-533 *)
Definition g_COMPARISON_OP : cexp :=
  (PRule R_LTE ⋅ PPred (QOp OP_LTE) ⋅ PAct (TDo [SOpPush OP_LTE]) ∥ PRule R_GTE ⋅
  PPred (QOp OP_GTE) ⋅ PAct (TDo [SOpPush OP_GTE]) ∥ PRule R_LT ⋅ PPred (QOp OP_LT) ⋅
  PAct (TDo [SOpPush OP_LT]) ∥ PRule R_GT ⋅ PPred (QOp OP_GT) ⋅
  PAct (TDo [SOpPush OP_GT])) ⋅ PRule R_sp.

(** parser.leg:535-540; variables i=0 e=1 p=2 v=3 *)
Definition g_list_comprehension : cexp :=
  with_vars 4 (PPred (QDo TBlockStart) ⋅ PRule R_LEFT_SQ_PAREN ⋅ PRule R_sp ⋅
  bind 0 R_identifier ⋅ PRule R_IN ⋅ PRule R_sp ⋅ bind 1 R_expression ⋅ (PRule R_WHERE ⋅
  bind 2 R_expression ∥ bind 2 R__null_) ⋅ (PRule R_PIPE ⋅ PRule R_sp ⋅
  bind 3 R_expression ∥ bind 3 R__null_) ⋅ PRule R_RIGHT_SQ_PAREN ⋅
  PPred (QDo TBlockEnd) ⋅
  PAct (TDo [SLet LRet (RMk K_list_comprehension [AVar 0; AVar 1; AVar 2; AVar 3])]) ⋅
  PRule R_sp).

(** parser.leg:542-548; variables i=0 r=1 p=2 v=3 *)
Definition g_pattern_comprehension : cexp :=
  with_vars 4 (PPred (QDo TBlockStart) ⋅ PRule R_LEFT_SQ_PAREN ⋅ PRule R_sp ⋅
  (bind 0 R_identifier ⋅ PRule R_EQUAL ⋅ PRule R_sp ∥ bind 0 R__null_) ⋅
  bind 1 R_pattern_expression_path ⋅ PRule R_sp ⋅ (PRule R_WHERE ⋅ bind 2 R_expression ∥
  bind 2 R__null_) ⋅ PRule R_PIPE ⋅ PRule R_sp ⋅ bind 3 R_expression ⋅
  PRule R_RIGHT_SQ_PAREN ⋅ PPred (QDo TBlockEnd) ⋅
  PAct (TDo [SLet LRet (RMk K_pattern_comprehension [AVar 0; AVar 1; AVar 2; AVar 3])]) ⋅
  PRule R_sp).

(** parser.leg:550-554; variables e=0 d=1 *)
Definition g_case_expression : cexp :=
  with_vars 2 (PPred (QDo TBlockStart) ⋅ PRule R_CASE ⋅ (bind 0 R__null_ ⋅
  PPlus (PRule R_case_alternative) ∥ bind 0 R_expression ⋅
  PPlus (PRule R_case_alternative)) ⋅ (bind 1 R_case_default ∥ bind 1 R__null_) ⋅
  PRule R_END ⋅ PPred (QDo TBlockEnd) ⋅
  PAct (TDo [SLet LRet (RMk K_case_expression [AVar 0; AVar 1])]) ⋅ PRule R_sp).

(** parser.leg:555-557; variables e=0 *)
Definition g_case_alternative : cexp :=
  with_vars 1 (PRule R_WHEN ⋅ bind 0 R_expression ⋅ PAct (TDo [SSeqAdd (AVar 0)]) ⋅
  PRule R_THEN ⋅ bind 0 R_expression ⋅ PAct (TDo [SSeqAdd (AVar 0)])).

(** parser.leg:558; variables e=0 *)
Definition g_case_default : cexp :=
  with_vars 1 (PRule R_ELSE ⋅ bind 0 R_expression ⋅
  PAct (TDo [SLet LRet (RArg (AVar 0))])).

(** parser.leg:560-564; variables i=0 e=1 p=2 *)
Definition g_filter_expression : cexp :=
  with_vars 3 (PPred (QDo TBlockStart) ⋅ PRule R_FILTER ⋅ PRule R_LEFT_PAREN ⋅
  PRule R_sp ⋅ bind 0 R_identifier ⋅ PRule R_IN ⋅ PRule R_sp ⋅ bind 1 R_expression ⋅
  (PRule R_WHERE ⋅ bind 2 R_expression ∥ bind 2 R__null_) ⋅ PRule R_RIGHT_PAREN ⋅
  PPred (QDo TBlockEnd) ⋅
  PAct (TDo [SLet LRet (RMk K_filter [AVar 0; AVar 1; AVar 2])]) ⋅ PRule R_sp).

(** parser.leg:565-569; variables i=0 e=1 v=2 *)
Definition g_extract_expression : cexp :=
  with_vars 3 (PPred (QDo TBlockStart) ⋅ PRule R_EXTRACT ⋅ PRule R_LEFT_PAREN ⋅
  PRule R_sp ⋅ bind 0 R_identifier ⋅ PRule R_IN ⋅ PRule R_sp ⋅ bind 1 R_expression ⋅
  (PRule R_PIPE ⋅ PRule R_sp ⋅ bind 2 R_expression ∥ bind 2 R__null_) ⋅
  PRule R_RIGHT_PAREN ⋅ PPred (QDo TBlockEnd) ⋅
  PAct (TDo [SLet LRet (RMk K_extract [AVar 0; AVar 1; AVar 2])]) ⋅ PRule R_sp).

(** parser.leg:570-575; variables a=0 n=1 i=2 e=3 v=4 *)
Definition g_reduce_expression : cexp :=
  with_vars 5 (PPred (QDo TBlockStart) ⋅ PRule R_REDUCE ⋅ PRule R_LEFT_PAREN ⋅
  PRule R_sp ⋅ bind 0 R_identifier ⋅ PRule R_EQUAL ⋅ PRule R_sp ⋅ bind 1 R_expression ⋅
  PRule R_COMMA ⋅ PRule R_sp ⋅ bind 2 R_identifier ⋅ PRule R_IN ⋅ PRule R_sp ⋅
  bind 3 R_expression ⋅ (PRule R_PIPE ⋅ PRule R_sp ⋅ bind 4 R_expression ∥
  bind 4 R__null_) ⋅ PRule R_RIGHT_PAREN ⋅ PPred (QDo TBlockEnd) ⋅
  PAct (TDo [SLet LRet (RMk K_reduce [AVar 0; AVar 1; AVar 2; AVar 3; AVar 4])]) ⋅
  PRule R_sp).

(** parser.leg:576-580; variables i=0 e=1 p=2 *)
Definition g_all_predicate : cexp :=
  with_vars 3 (PPred (QDo TBlockStart) ⋅ PRule R_ALL ⋅ PRule R_LEFT_PAREN ⋅ PRule R_sp ⋅
  bind 0 R_identifier ⋅ PRule R_IN ⋅ PRule R_sp ⋅ bind 1 R_expression ⋅ (PRule R_WHERE ⋅
  bind 2 R_expression ∥ bind 2 R__null_) ⋅ PRule R_RIGHT_PAREN ⋅ PPred (QDo TBlockEnd) ⋅
  PAct (TDo [SLet LRet (RMk K_all_predicate [AVar 0; AVar 1; AVar 2])]) ⋅ PRule R_sp).

(** parser.leg:581-585; variables i=0 e=1 p=2 *)
Definition g_any_predicate : cexp :=
  with_vars 3 (PPred (QDo TBlockStart) ⋅ PRule R_ANY ⋅ PRule R_LEFT_PAREN ⋅ PRule R_sp ⋅
  bind 0 R_identifier ⋅ PRule R_IN ⋅ PRule R_sp ⋅ bind 1 R_expression ⋅ (PRule R_WHERE ⋅
  bind 2 R_expression ∥ bind 2 R__null_) ⋅ PRule R_RIGHT_PAREN ⋅ PPred (QDo TBlockEnd) ⋅
  PAct (TDo [SLet LRet (RMk K_any_predicate [AVar 0; AVar 1; AVar 2])]) ⋅ PRule R_sp).

(** parser.leg:586-590; variables i=0 e=1 p=2 *)
Definition g_single_predicate : cexp :=
  with_vars 3 (PPred (QDo TBlockStart) ⋅ PRule R_SINGLE ⋅ PRule R_LEFT_PAREN ⋅
  PRule R_sp ⋅ bind 0 R_identifier ⋅ PRule R_IN ⋅ PRule R_sp ⋅ bind 1 R_expression ⋅
  (PRule R_WHERE ⋅ bind 2 R_expression ∥ bind 2 R__null_) ⋅ PRule R_RIGHT_PAREN ⋅
  PPred (QDo TBlockEnd) ⋅
  PAct (TDo [SLet LRet (RMk K_single_predicate [AVar 0; AVar 1; AVar 2])]) ⋅ PRule R_sp).

(** parser.leg:591-595; variables i=0 e=1 p=2 *)
Definition g_none_predicate : cexp :=
  with_vars 3 (PPred (QDo TBlockStart) ⋅ PRule R_NONE ⋅ PRule R_LEFT_PAREN ⋅ PRule R_sp ⋅
  bind 0 R_identifier ⋅ PRule R_IN ⋅ PRule R_sp ⋅ bind 1 R_expression ⋅ (PRule R_WHERE ⋅
  bind 2 R_expression ∥ bind 2 R__null_) ⋅ PRule R_RIGHT_PAREN ⋅ PPred (QDo TBlockEnd) ⋅
  PAct (TDo [SLet LRet (RMk K_none_predicate [AVar 0; AVar 1; AVar 2])]) ⋅ PRule R_sp).

(** parser.leg:597-612; variables n=0 e=1 *)
Definition g_function_application : cexp :=
  with_vars 2 ((PPred (QDo TBlockStart) ⋅ bind 0 R_function_name ⋅ PRule R_LEFT_PAREN ⋅
  PRule R_sp ⋅ PRule R_DISTINCT ⋅ PRule R_STAR ⋅ PRule R_sp ⋅ PRule R_RIGHT_PAREN ⋅
  PPred (QDo TBlockEnd) ⋅
  PAct (TDo [SLet LRet (RMk (K_apply_all_operator true) [AVar 0])]) ∥
  PPred (QDo TBlockStart) ⋅ bind 0 R_function_name ⋅ PRule R_LEFT_PAREN ⋅ PRule R_sp ⋅
  PRule R_STAR ⋅ PRule R_sp ⋅ PRule R_RIGHT_PAREN ⋅ PPred (QDo TBlockEnd) ⋅
  PAct (TDo [SLet LRet (RMk (K_apply_all_operator false) [AVar 0])]) ∥
  PPred (QDo TBlockStart) ⋅ bind 0 R_function_name ⋅ PRule R_LEFT_PAREN ⋅ PRule R_sp ⋅
  PRule R_DISTINCT ⋅ PQuery (bind 1 R_expression ⋅ PAct (TDo [SSeqAdd (AVar 1)]) ⋅
  PStar (PRule R_COMMA ⋅ PRule R_sp ⋅ bind 1 R_expression ⋅
  PAct (TDo [SSeqAdd (AVar 1)]))) ⋅ PRule R_RIGHT_PAREN ⋅ PPred (QDo TBlockEnd) ⋅
  PAct (TDo [SLet LRet (RMk (K_apply_operator true) [AVar 0])]) ∥
  PPred (QDo TBlockStart) ⋅ bind 0 R_function_name ⋅ PRule R_LEFT_PAREN ⋅ PRule R_sp ⋅
  PQuery (bind 1 R_expression ⋅ PAct (TDo [SSeqAdd (AVar 1)]) ⋅ PStar (PRule R_COMMA ⋅
  PRule R_sp ⋅ bind 1 R_expression ⋅ PAct (TDo [SSeqAdd (AVar 1)]))) ⋅
  PRule R_RIGHT_PAREN ⋅ PPred (QDo TBlockEnd) ⋅
  PAct (TDo [SLet LRet (RMk (K_apply_operator false) [AVar 0])])) ⋅ PRule R_sp).

(** parser.leg:614-619; variables e=0 *)
Definition g_collection_literal : cexp :=
  with_vars 1 (PPred (QDo TBlockStart) ⋅ PRule R_LEFT_SQ_PAREN ⋅ PRule R_sp ⋅
  PQuery (bind 0 R_expression ⋅ PAct (TDo [SSeqAdd (AVar 0)]) ⋅ PStar (PRule R_COMMA ⋅
  PRule R_sp ⋅ bind 0 R_expression ⋅ PAct (TDo [SSeqAdd (AVar 0)]))) ⋅
  PRule R_RIGHT_SQ_PAREN ⋅ PPred (QDo TBlockEnd) ⋅
  PAct (TDo [SLet LRet (RMk K_collection_literal [])]) ⋅ PRule R_sp).

(** parser.leg:621-628; variables n=0 v=1 *)
Definition g_map_literal : cexp :=
  with_vars 2 (PPred (QDo TBlockStart) ⋅ PRule R_LEFT_CURLY ⋅ PRule R_sp ⋅
  PQuery (bind 0 R_prop_name ⋅ PAct (TDo [SSeqAdd (AVar 0)]) ⋅ PRule R_COLON ⋅
  PRule R_sp ⋅ bind 1 R_expression ⋅ PAct (TDo [SSeqAdd (AVar 1)]) ⋅
  PStar (PRule R_COMMA ⋅ PRule R_sp ⋅ bind 0 R_prop_name ⋅
  PAct (TDo [SSeqAdd (AVar 0)]) ⋅ PRule R_COLON ⋅ PRule R_sp ⋅ bind 1 R_expression ⋅
  PAct (TDo [SSeqAdd (AVar 1)]))) ⋅ PRule R_RIGHT_CURLY ⋅ PPred (QDo TBlockEnd) ⋅
  PAct (TDo [SLet LRet (RMk K_map_literal [])]) ⋅ PRule R_sp).

(** parser.leg:630-632 *)
Definition g_identifier : cexp :=
  PAct (TDo [SStrReset]) ⋅ PErr (PPred (QDo TBlockStart) ⋅ PRule R_symbolic_name ⋅
  PPred (QDo TBlockEnd) ⋅ PAct (TDo [SLet LRet (RMk K_strbuf_identifier [])]) ⋅
  PRule R_sp) (QErr (B "an identifier")).

(** parser.leg:634-636 *)
Definition g_string_literal : cexp :=
  PAct (TDo [SStrReset]) ⋅ PErr (PPred (QDo TBlockStart) ⋅ PRule R_quoted ⋅
  PPred (QDo TBlockEnd) ⋅ PAct (TDo [SLet LRet (RMk K_strbuf_string [])]) ⋅
  PRule R_sp) (QErr (B """...string...""")).

(** parser.leg:638-640 *)
Definition g_float_literal : cexp :=
  PAct (TDo [SStrReset]) ⋅ PErr (PPred (QDo TBlockStart) ⋅ PRule R_float_string ⋅
  PPred (QDo TBlockEnd) ⋅ PAct (TDo [SLet LRet (RMk K_strbuf_float [])]) ⋅
  PRule R_sp) (QErr (B "a float")).

(** parser.leg:642-644 *)
Definition g_integer_literal : cexp :=
  PAct (TDo [SStrReset]) ⋅ PErr (PPred (QDo TBlockStart) ⋅ PRule R_integer_string ⋅
  PPred (QDo TBlockEnd) ⋅ PAct (TDo [SLet LRet (RMk K_strbuf_integer [])]) ⋅
  PRule R_sp) (QErr (B "an integer")).

(** parser.leg:646-648 *)
Definition g_true_literal : cexp :=
  PPred (QDo TBlockStart) ⋅ PRule R_TRUE ⋅ PPred (QDo TBlockEnd) ⋅
  PAct (TDo [SLet LRet (RMk K_true_literal [])]) ⋅ PRule R_sp.

(** parser.leg:649-651 *)
Definition g_false_literal : cexp :=
  PPred (QDo TBlockStart) ⋅ PRule R_FALSE ⋅ PPred (QDo TBlockEnd) ⋅
  PAct (TDo [SLet LRet (RMk K_false_literal [])]) ⋅ PRule R_sp.

(** parser.leg:652-654 *)
Definition g_null_literal : cexp :=
  PPred (QDo TBlockStart) ⋅ PRule R_NULL ⋅ PPred (QDo TBlockEnd) ⋅
  PAct (TDo [SLet LRet (RMk K_null_literal [])]) ⋅ PRule R_sp.

(** parser.leg:656-660 *)
Definition g_parameter : cexp :=
  PRule R__block_start_ ⋅ PAct (TDo [SStrReset]) ⋅ (PErr (PChar "$"%char ⋅ PRule R_sp ⋅
  PRule R_parameter_name) (QErr (B "a parameter")) ∥ PErr (PChar "{"%char ⋅ PRule R_sp ⋅
  PRule R_parameter_name) (QErr (B "a parameter")) ⋅ PRule R_sp ⋅ PRule R_RIGHT_CURLY) ⋅
  PRule R__block_merge_ ⋅ PAct (TDo [SLet LRet (RMk K_strbuf_parameter [])]) ⋅ PRule R_sp.

(** parser.leg:662-665 *)
Definition g_label : cexp :=
  PRule R__block_start_ ⋅ PAct (TDo [SStrReset]) ⋅ PErr (PChar ":"%char ⋅ PRule R_sp ⋅
  PRule R_symbolic_name) (QErr (B "a label")) ⋅ PRule R__block_merge_ ⋅
  PAct (TDo [SLet LRet (RMk K_strbuf_label [])]) ⋅ PRule R_sp.

(** parser.leg:667-670 *)
Definition g_rel_type : cexp :=
  PRule R__block_start_ ⋅ PAct (TDo [SStrReset]) ⋅ PErr (PChar ":"%char ⋅ PRule R_sp ⋅
  PRule R_symbolic_name) (QErr (B "a relationship type")) ⋅ PRule R__block_merge_ ⋅
  PAct (TDo [SLet LRet (RMk K_strbuf_reltype [])]) ⋅ PRule R_sp.

(** parser.leg:672-675 *)
Definition g_rel_type_name : cexp :=
  PPred (QDo TBlockStart) ⋅ PAct (TDo [SStrReset]) ⋅
  PErr (PRule R_symbolic_name) (QErr (B "a relationship type name")) ⋅
  PPred (QDo TBlockEnd) ⋅ PAct (TDo [SLet LRet (RMk K_strbuf_reltype [])]) ⋅ PRule R_sp.

(** parser.leg:677-680 *)
Definition g_prop_name : cexp :=
  PPred (QDo TBlockStart) ⋅ PAct (TDo [SStrReset]) ⋅
  PErr (PRule R_symbolic_name) (QErr (B "a property name")) ⋅ PPred (QDo TBlockEnd) ⋅
  PAct (TDo [SLet LRet (RMk K_strbuf_prop_name [])]) ⋅ PRule R_sp.

(** parser.leg:682-687 *)
Definition g_function_name : cexp :=
  PPred (QDo TBlockStart) ⋅ PAct (TDo [SStrReset]) ⋅ PErr (PStar (PRule R_symbolic_name ⋅
  PRule R_sp ⋅ PRule R_DOT ⋅ PRule R_sp ⋅ PAct (TDo [SStrAppend (B ".")])) ⋅
  PRule R_symbolic_name) (QErr (B "a function name")) ⋅ PPred (QDo TBlockEnd) ⋅
  PAct (TDo [SLet LRet (RMk K_strbuf_function_name [])]) ⋅ PRule R_sp.

(** parser.leg:689-692 *)
Definition g_index_name : cexp :=
  PPred (QDo TBlockStart) ⋅ PAct (TDo [SStrReset]) ⋅
  PErr (PRule R_symbolic_name) (QErr (B "an index name")) ⋅ PPred (QDo TBlockEnd) ⋅
  PAct (TDo [SLet LRet (RMk K_strbuf_index_name [])]) ⋅ PRule R_sp.

(** parser.leg:694-699 *)
Definition g_proc_name : cexp :=
  PPred (QDo TBlockStart) ⋅ PAct (TDo [SStrReset]) ⋅ PErr (PStar (PRule R_symbolic_name ⋅
  PRule R_sp ⋅ PRule R_DOT ⋅ PRule R_sp ⋅ PAct (TDo [SStrAppend (B ".")])) ⋅
  PRule R_symbolic_name) (QErr (B "a procedure name")) ⋅ PPred (QDo TBlockEnd) ⋅
  PAct (TDo [SLet LRet (RMk K_strbuf_proc_name [])]) ⋅ PRule R_sp.

(** parser.leg:706-710; variables p=0 *)
Definition g_pattern : cexp :=
  with_vars 1 (PPred (QDo TBlockStart) ⋅ bind 0 R_pattern_part ⋅
  PAct (TDo [SSeqAdd (AVar 0)]) ⋅ PStar (PRule R_COMMA ⋅ PRule R_sp ⋅
  bind 0 R_pattern_part ⋅ PAct (TDo [SSeqAdd (AVar 0)])) ⋅ PPred (QDo TBlockEnd) ⋅
  PAct (TDo [SLet LRet (RMk K_pattern [])]) ⋅ PRule R_sp).

(** parser.leg:712-715; variables i=0 p=1 *)
Definition g_pattern_part : cexp :=
  with_vars 2 (PPred (QDo TBlockStart) ⋅ bind 0 R_identifier ⋅ PRule R_EQUAL ⋅
  PRule R_sp ⋅ bind 1 R_anon_pattern_part ⋅ PPred (QDo TBlockEnd) ⋅
  PAct (TDo [SLet LRet (RMk K_named_path [AVar 0; AVar 1])]) ∥
  bind 1 R_anon_pattern_part ⋅ PAct (TDo [SLet LRet (RArg (AVar 1))])).

(** parser.leg:717-719; variables p=0 *)
Definition g_anon_pattern_part : cexp :=
  with_vars 1 (bind 0 R_shortest_path_pattern ⋅ PAct (TDo [SLet LRet (RArg (AVar 0))]) ∥
  bind 0 R_pattern_path ⋅ PAct (TDo [SLet LRet (RArg (AVar 0))])).

(** parser.leg:721-725; variables p=0 *)
Definition g_shortest_path_pattern : cexp :=
  with_vars 1 (PPred (QDo TBlockStart) ⋅ PRule R_SHORTESTPATH ⋅ PRule R_LEFT_PAREN ⋅
  PRule R_sp ⋅ bind 0 R_pattern_path ⋅ PRule R_sp ⋅ PRule R_RIGHT_PAREN ⋅
  PPred (QDo TBlockEnd) ⋅ PAct (TDo [SLet LRet (RMk (K_shortest_path true) [AVar 0])]) ∥
  PPred (QDo TBlockStart) ⋅ PRule R_ALLSHORTESTPATHS ⋅ PRule R_LEFT_PAREN ⋅ PRule R_sp ⋅
  bind 0 R_pattern_path ⋅ PRule R_sp ⋅ PRule R_RIGHT_PAREN ⋅ PPred (QDo TBlockEnd) ⋅
  PAct (TDo [SLet LRet (RMk (K_shortest_path false) [AVar 0])])).

(** parser.leg:727-731; variables n=0 r=1 *)
Definition g_pattern_path : cexp :=
  with_vars 2 (PPred (QDo TBlockStart) ⋅ bind 0 R_node_pattern ⋅
  PAct (TDo [SSeqAdd (AVar 0)]) ⋅ PStar (PRule R_sp ⋅ bind 1 R_relationship_pattern ⋅
  PRule R_sp ⋅ bind 0 R_node_pattern ⋅ PAct (TDo [SSeqAdd (AVar 1); SSeqAdd (AVar 0)])) ⋅
  PPred (QDo TBlockEnd) ⋅ PAct (TDo [SLet LRet (RMk K_pattern_path [])])).

(** parser.leg:733-735; variables p=0 *)
Definition g_pattern_expression : cexp :=
  with_vars 1 (bind 0 R_shortest_path_pattern ⋅ PRule R_sp ⋅
  PAct (TDo [SLet LRet (RArg (AVar 0))]) ∥ bind 0 R_pattern_expression_path ⋅
  PRule R_sp ⋅ PAct (TDo [SLet LRet (RArg (AVar 0))])).

(** parser.leg:737-741; variables n=0 r=1 *)
Definition g_pattern_expression_path : cexp :=
  with_vars 2 (PPred (QDo TBlockStart) ⋅ bind 0 R_node_pattern ⋅
  PAct (TDo [SSeqAdd (AVar 0)]) ⋅ PPlus (PRule R_sp ⋅ bind 1 R_relationship_pattern ⋅
  PRule R_sp ⋅ bind 0 R_node_pattern ⋅ PAct (TDo [SSeqAdd (AVar 1); SSeqAdd (AVar 0)])) ⋅
  PPred (QDo TBlockEnd) ⋅ PAct (TDo [SLet LRet (RMk K_pattern_path [])])).

(** parser.leg:743-747; variables i=0 n=1 p=2 *)
Definition g_node_pattern : cexp :=
  with_vars 3 (PPred (QDo TBlockStart) ⋅ PRule R_LEFT_PAREN ⋅ PRule R_sp ⋅
  (bind 0 R_identifier ∥ bind 0 R__null_) ⋅ PStar (bind 1 R_label ⋅
  PAct (TDo [SSeqAdd (AVar 1)])) ⋅ (bind 2 R_pattern_properties ∥ bind 2 R__null_) ⋅
  PRule R_RIGHT_PAREN ⋅ PPred (QDo TBlockEnd) ⋅
  PAct (TDo [SLet LRet (RMk K_node_pattern [AVar 0; AVar 2])])).

(** parser.leg:749-774; variables i=0 l=1 p=2 *)
Definition g_relationship_pattern : cexp :=
  with_vars 3 (PPred (QDo TBlockStart) ⋅ (PRule R_LEFT_ARROW_HEAD ⋅ PRule R_sp ⋅
  PRule R_DASH ⋅ PRule R_sp ⋅ (PRule R_DASH ⋅ (PRule R_sp ⋅ PRule R_RIGHT_ARROW_HEAD ⋅
  PPred (QDo TBlockEnd) ⋅
  PAct (TDo [SLet LRet (RMk (K_simple_rel_pattern BIDIRECTIONAL) [])]) ∥
  PRule R__empty_ ⋅ PPred (QDo TBlockEnd) ⋅
  PAct (TDo [SLet LRet (RMk (K_simple_rel_pattern INBOUND) [])])) ∥
  PRule R_LEFT_SQ_PAREN ⋅ PRule R_sp ⋅ (bind 0 R_identifier ∥ bind 0 R__null_) ⋅
  PQuery (PRule R_rel_types) ⋅ (bind 1 R_rel_varlength ∥ bind 1 R__null_) ⋅
  (bind 2 R_pattern_properties ∥ bind 2 R__null_) ⋅ PRule R_RIGHT_SQ_PAREN ⋅ PRule R_sp ⋅
  PRule R_DASH ⋅ (PRule R_sp ⋅ PRule R_RIGHT_ARROW_HEAD ⋅ PPred (QDo TBlockEnd) ⋅
  PAct (TDo [SLet LRet (RMk (K_rel_pattern BIDIRECTIONAL) [AVar 0; AVar 1; AVar 2])]) ∥
  PRule R__empty_ ⋅ PPred (QDo TBlockEnd) ⋅
  PAct (TDo [SLet LRet (RMk (K_rel_pattern INBOUND) [AVar 0; AVar 1; AVar 2])]))) ∥
  PRule R_DASH ⋅ PRule R_sp ⋅ (PRule R_DASH ⋅ (PRule R_sp ⋅ PRule R_RIGHT_ARROW_HEAD ⋅
  PPred (QDo TBlockEnd) ⋅
  PAct (TDo [SLet LRet (RMk (K_simple_rel_pattern OUTBOUND) [])]) ∥ PRule R__empty_ ⋅
  PPred (QDo TBlockEnd) ⋅
  PAct (TDo [SLet LRet (RMk (K_simple_rel_pattern BIDIRECTIONAL) [])])) ∥
  PRule R_LEFT_SQ_PAREN ⋅ PRule R_sp ⋅ (bind 0 R_identifier ∥ bind 0 R__null_) ⋅
  PQuery (PRule R_rel_types) ⋅ (bind 1 R_rel_varlength ∥ bind 1 R__null_) ⋅
  (bind 2 R_pattern_properties ∥ bind 2 R__null_) ⋅ PRule R_RIGHT_SQ_PAREN ⋅ PRule R_sp ⋅
  PRule R_DASH ⋅ (PRule R_sp ⋅ PRule R_RIGHT_ARROW_HEAD ⋅ PPred (QDo TBlockEnd) ⋅
  PAct (TDo [SLet LRet (RMk (K_rel_pattern OUTBOUND) [AVar 0; AVar 1; AVar 2])]) ∥
  PRule R__empty_ ⋅ PPred (QDo TBlockEnd) ⋅
  PAct (TDo [SLet LRet (RMk (K_rel_pattern BIDIRECTIONAL) [AVar 0; AVar 1; AVar 2])]))))).

(** parser.leg:776-780; variables n=0 *)
Definition g_rel_types : cexp :=
  with_vars 1 (bind 0 R_rel_type ⋅ PAct (TDo [SSeqAdd (AVar 0)]) ⋅ PStar (PRule R_PIPE ⋅
  PRule R_sp ⋅ (bind 0 R_rel_type ∥ bind 0 R_rel_type_name) ⋅
  PAct (TDo [SSeqAdd (AVar 0)]))).

(** parser.leg:782-789; variables s=0 e=1 *)
Definition g_rel_varlength : cexp :=
  with_vars 2 (PPred (QDo TBlockStart) ⋅ PRule R_STAR ⋅ PRule R_sp ⋅
  (bind 0 R_integer_literal ∥ bind 0 R__null_) ⋅ PRule R_ELLIPSIS ⋅ PRule R_sp ⋅
  (bind 1 R_integer_literal ∥ bind 1 R__null_) ⋅ PPred (QDo TBlockEnd) ⋅
  PAct (TDo [SLet LRet (RMk K_range [AVar 0; AVar 1])]) ∥ PRule R_STAR ⋅ PRule R_sp ⋅
  PPred (QDo TBlockStart) ⋅ (bind 0 R_integer_literal ∥ bind 0 R__null_) ⋅
  PPred (QDo TBlockEnd) ⋅ PAct (TDo [SLet LRet (RMk K_range [AVar 0; AVar 0])]) ∥
  PPred (QDo TBlockStart) ⋅ PRule R_STAR ⋅ PRule R_sp ⋅ PPred (QDo TBlockEnd) ⋅
  PAct (TDo [SLet LRet (RMk K_range [ANull; ANull])])).

(** parser.leg:791 *)
Definition g_pattern_properties : cexp :=
  PRule R_map_literal ∥ PRule R_parameter.

(** parser.leg:798-804; variables n=0 a=1 *)
Definition g_client_command : cexp :=
  with_vars 2 (PPred (QDo TBlockStart) ⋅ PRule R_COLON ⋅ PRule R_hsp ⋅
  bind 0 R_client_command_name ⋅ PStar (PChar "\"%char ⋅ PRule R_hsp ⋅ PRule R_line_end ⋅
  PRule R_hsp ∥ bind 1 R_client_command_arg ⋅ PAct (TDo [SSeqAdd (AVar 1)])) ⋅
  PPred (QDo TBlockEnd) ⋅ PAct (TDo [SLet LRet (RMk K_command [AVar 0])]) ⋅
  (PRule R_SEMICOLON ∥ PRule R_line_end)).

(** parser.leg:806-807; variables n=0 *)
Definition g_client_command_name : cexp :=
  with_vars 1 (PErr (bind 0 R_client_command_arg) (QErr (B "a command name")) ⋅
  PAct (TDo [SLet LRet (RArg (AVar 0))])).

(** parser.leg:808-809; variables s=0 *)
Definition g_client_command_arg : cexp :=
  with_vars 1 (bind 0 R_client_arg_string ⋅ PRule R_hsp ⋅
  PAct (TDo [SLet LRet (RArg (AVar 0))])).

(** parser.leg:811-812 *)
Definition g_client_arg_string : cexp :=
  PAct (TDo [SStrReset]) ⋅ PPred (QDo TBlockStart) ⋅ PPlus (PRule R_unquoted ∥
  PRule R_quoted) ⋅ PPred (QDo TBlockEnd) ⋅
  PAct (TDo [SLet LRet (RMk K_strbuf_string [])]).

(** parser.leg:821-826 *)
Definition g_unquoted : cexp :=
  PPlus (PRule R_escaped_char ∥ PStr (B "\;") ⋅ PAct (TDo [SStrAppend (B ";")]) ∥
  PPred (QDo TBlockStart) ⋅ PPlus (PNot (PClass (B "'""") ∥ PRule R_WS ∥ PStr (B "//") ∥
  PStr (B "/*") ∥ PChar "\"%char ∥ PRule R_SEMICOLON ∥ PRule R_EOF) ⋅ PDot) ⋅
  PPred (QDo TBlockEnd) ⋅ PAct (TDo [SStrBlock])).

(** parser.leg:828 *)
Definition g_quoted : cexp :=
  PRule R_single_quoted ∥ PRule R_double_quoted.

(** parser.leg:829-834 *)
Definition g_single_quoted : cexp :=
  PChar "'"%char ⋅ PStar (PRule R_escaped_char ∥ PPred (QDo TBlockStart) ⋅ PRule R_EOL ⋅
  PPred (QDo TBlockEnd) ⋅ PAct (TDo [SStrBlock]) ∥ PPred (QDo TBlockStart) ⋅
  PPlus (PNot (PChar "'"%char ∥ PRule R_escaped_char ∥ PRule R_EOL) ⋅ PDot) ⋅
  PPred (QDo TBlockEnd) ⋅ PAct (TDo [SStrBlock])) ⋅ PErr (PChar "'"%char) (QErr (B "'")).

(** parser.leg:835-840 *)
Definition g_double_quoted : cexp :=
  PChar """"%char ⋅ PStar (PRule R_escaped_char ∥ PPred (QDo TBlockStart) ⋅ PRule R_EOL ⋅
  PPred (QDo TBlockEnd) ⋅ PAct (TDo [SStrBlock]) ∥ PPred (QDo TBlockStart) ⋅
  PPlus (PNot (PChar """"%char ∥ PRule R_escaped_char ∥ PRule R_EOL) ⋅ PDot) ⋅
  PPred (QDo TBlockEnd) ⋅ PAct (TDo [SStrBlock])) ⋅ PErr (PChar """"%char) (QErr (B """")).

(** parser.leg:842-853 *)
Definition g_escaped_char : cexp :=
  PStr (B "\a") ⋅ PAct (TDo [SStrAppend ["007"%char]]) ∥ PStr (B "\b") ⋅
  PAct (TDo [SStrAppend ["008"%char]]) ∥ PStr (B "\f") ⋅
  PAct (TDo [SStrAppend ["012"%char]]) ∥ PStr (B "\n") ⋅
  PAct (TDo [SStrAppend ["010"%char]]) ∥ PStr (B "\r") ⋅
  PAct (TDo [SStrAppend ["013"%char]]) ∥ PStr (B "\t") ⋅
  PAct (TDo [SStrAppend ["009"%char]]) ∥ PStr (B "\v") ⋅
  PAct (TDo [SStrAppend ["011"%char]]) ∥ PStr (B "\\") ⋅
  PAct (TDo [SStrAppend (B "\")]) ∥ PStr (B "\'") ⋅ PAct (TDo [SStrAppend (B "'")]) ∥
  PStr (B "\""") ⋅ PAct (TDo [SStrAppend (B """")]) ∥ PStr (B "\?") ⋅
  PAct (TDo [SStrAppend (B "?")]).

(** parser.leg:855-857 *)
Definition g_symbolic_name : cexp :=
  PRule R_unescaped_symbolic_name ∥ PRule R_escaped_symbolic_name.

(** parser.leg:858-859 *)
Definition g_unescaped_symbolic_name : cexp :=
  PPred (QDo TBlockStart) ⋅ PRule R_sym_start ⋅ PStar (PRule R_sym_part) ⋅
  PPred (QDo TBlockEnd) ⋅ PAct (TDo [SStrBlock]).

(** parser.leg:860-861 *)
Definition g_escaped_symbolic_name : cexp :=
  PChar "`"%char ⋅ PPred (QDo TBlockStart) ⋅ PStar (PNot (PChar "`"%char) ⋅ PDot) ⋅
  PPred (QDo TBlockEnd) ⋅ PErr (PChar "`"%char) (QErr (B "`")) ⋅ PAct (TDo [SStrBlock]).

(** parser.leg:863-865 *)
Definition g_parameter_name : cexp :=
  PRule R_symbolic_name ∥ PPred (QDo TBlockStart) ⋅ PClass (B "123456789") ⋅
  PStar (PClass (B "0123456789")) ⋅ PPred (QDo TBlockEnd) ⋅ PAct (TDo [SStrBlock]).

(** parser.leg:869-872 *)
Definition g_float_string : cexp :=
  PPred (QDo TBlockStart) ⋅ PPlus (PClass (B "0123456789")) ⋅ PQuery (PChar "."%char) ⋅
  PStar (PClass (B "0123456789")) ⋅ PClass (B "eE") ⋅ PQuery (PClass (B "-+")) ⋅
  PClass (B "0123456789") ⋅ PStar (PRule R_sym_part) ⋅ PPred (QDo TBlockEnd) ⋅
  PAct (TDo [SStrBlock]) ∥ PPred (QDo TBlockStart) ⋅ PStar (PClass (B "0123456789")) ⋅
  PChar "."%char ⋅ PClass (B "0123456789") ⋅ PStar (PRule R_sym_part) ⋅
  PPred (QDo TBlockEnd) ⋅ PAct (TDo [SStrBlock]).

(** parser.leg:879 *)
Definition g_integer_string : cexp :=
  PPred (QDo TBlockStart) ⋅ PClass (B "0123456789") ⋅ PStar (PRule R_sym_part) ⋅
  PPred (QDo TBlockEnd) ⋅ PAct (TDo [SStrBlock]).

(** parser.leg:881 *)
Definition g_sym_start : cexp :=
  PClass (B "abcdefghijklmnopqrstuvwxyzABCDEFGHIJKLMNOPQRSTUVWXYZ_").

(** parser.leg:882 *)
Definition g_sym_part : cexp :=
  PClass (B "abcdefghijklmnopqrstuvwxyzABCDEFGHIJKLMNOPQRSTUVWXYZ0123456789_$").

(** parser.leg:889 *)
Definition g_sp : cexp :=
  PStar (PRule R_WS ∥ PRule R_comment).

(** parser.leg:890 *)
Definition g_hsp : cexp :=
  PStar (PRule R_HWS ∥ PRule R_block_comment).

(** parser.leg:891 *)
Definition g_line_end : cexp :=
  PRule R_line_comment ∥ PRule R_EOL ∥ PRule R_EOF.

(** parser.leg:893 *)
Definition g_comment : cexp :=
  PRule R_line_comment ∥ PRule R_block_comment.

(** parser.leg:894-895 *)
Definition g_line_comment : cexp :=
  PStr (B "//") ⋅ PPred (QDo TBlockStart) ⋅ PStar (PNot (PRule R_EOL) ⋅ PDot) ⋅
  PPred (QDo TBlockEnd) ⋅ PAct (TDo [SDrop (RMk K_line_comment [])]) ⋅ (PRule R_EOL ∥
  PRule R_EOF).

(** parser.leg:896-898 *)
Definition g_block_comment : cexp :=
  PStr (B "/*") ⋅ PPred (QDo TBlockStart) ⋅ PStar (PRule R_EOL ∥ PNot (PStr (B "*/")) ⋅
  PDot) ⋅ PPred (QDo TBlockEnd) ⋅ PAct (TDo [SDrop (RMk K_block_comment [])]) ⋅
  PErr (PStr (B "*/")) (QErr (B "*/")).

(** parser.leg:900 *)
Definition g_WS : cexp :=
  PRule R_HWS ∥ PRule R_EOL.

(** parser.leg:901 *)
Definition g_HWS : cexp :=
  PClass [" "%char; "009"%char].

(** parser.leg:902 *)
Definition g_EOL : cexp :=
  (PChar "010"%char ∥ PStr ["013"%char; "010"%char]) ⋅ PRule R__line_start_.

(** parser.leg:903 *)
Definition g_EOF : cexp :=
  PNot PDot ⋅ PAct (TDo [SEof]).

(** parser.leg:910 *)
Definition g_CYPHER : cexp :=
  PClass (B "Cc") ⋅ PErr (PClass (B "Yy") ⋅ PClass (B "Pp") ⋅ PClass (B "Hh") ⋅
  PClass (B "Ee") ⋅ PClass (B "Rr") ⋅ PRule R_WB) (QErr (B "CYPHER")).

(** parser.leg:911 *)
Definition g_PROFILE : cexp :=
  PClass (B "Pp") ⋅ PErr (PClass (B "Rr") ⋅ PClass (B "Oo") ⋅ PClass (B "Ff") ⋅
  PClass (B "Ii") ⋅ PClass (B "Ll") ⋅ PClass (B "Ee") ⋅ PRule R_WB) (QErr (B "PROFILE")).

(** parser.leg:912 *)
Definition g_EXPLAIN : cexp :=
  PClass (B "Ee") ⋅ PErr (PClass (B "Xx") ⋅ PClass (B "Pp") ⋅ PClass (B "Ll") ⋅
  PClass (B "Aa") ⋅ PClass (B "Ii") ⋅ PClass (B "Nn") ⋅ PRule R_WB) (QErr (B "EXPLAIN")).

(** parser.leg:914 *)
Definition g_OR : cexp :=
  PErr (PClass (B "Oo") ⋅ PClass (B "Rr") ⋅ PRule R_WB) (QErr (B "OR")).

(** parser.leg:915 *)
Definition g_XOR : cexp :=
  PErr (PClass (B "Xx") ⋅ PClass (B "Oo") ⋅ PClass (B "Rr") ⋅ PRule R_WB) (QErr (B "XOR")).

(** parser.leg:916 *)
Definition g_AND : cexp :=
  PErr (PClass (B "Aa") ⋅ PClass (B "Nn") ⋅ PClass (B "Dd") ⋅ PRule R_WB) (QErr (B "AND")).

(** parser.leg:917 *)
Definition g_NOT : cexp :=
  PErr (PClass (B "Nn") ⋅ PClass (B "Oo") ⋅ PClass (B "Tt") ⋅ PRule R_WB) (QErr (B "NOT")).

(** parser.leg:918 *)
Definition g_EQUAL : cexp :=
  PErr (PChar "="%char) (QErr (B "'='")).

(** parser.leg:919 *)
Definition g_NEQUAL : cexp :=
  PErr (PStr (B "<>")) (QErr (B "'<>'")).

(** parser.leg:920 *)
Definition g_PLUSEQUAL : cexp :=
  PErr (PStr (B "+=")) (QErr (B "'+='")).

(** parser.leg:921 *)
Definition g_LT : cexp :=
  PErr (PChar "<"%char) (QErr (B "'<'")).

(** parser.leg:922 *)
Definition g_GT : cexp :=
  PErr (PChar ">"%char) (QErr (B "'>'")).

(** parser.leg:923 *)
Definition g_LTE : cexp :=
  PErr (PStr (B "<=")) (QErr (B "'<='")).

(** parser.leg:924 *)
Definition g_GTE : cexp :=
  PErr (PStr (B ">=")) (QErr (B "'>='")).

(** parser.leg:925 *)
Definition g_PLUS : cexp :=
  PErr (PChar "+"%char) (QErr (B "'+'")).

(** parser.leg:926 *)
Definition g_MINUS : cexp :=
  PErr (PChar "-"%char) (QErr (B "'-'")).

(** parser.leg:927 *)
Definition g_MULT : cexp :=
  PErr (PChar "*"%char) (QErr (B "'*'")).

(** parser.leg:928 *)
Definition g_DIV : cexp :=
  PErr (PChar "/"%char) (QErr (B "'/'")).

(** parser.leg:929 *)
Definition g_MOD : cexp :=
  PErr (PChar "%"%char) (QErr (B "'%'")).

(** parser.leg:930 *)
Definition g_POW : cexp :=
  PErr (PChar "^"%char) (QErr (B "'^'")).

(** parser.leg:931 *)
Definition g_IN : cexp :=
  PErr (PClass (B "Ii") ⋅ PClass (B "Nn") ⋅ PRule R_WB) (QErr (B "IN")).

(** parser.leg:932 *)
Definition g_REGEX : cexp :=
  PErr (PStr (B "=~")) (QErr (B "'=~'")).

(** parser.leg:933 *)
Definition g_STARTS_WITH : cexp :=
  PErr (PClass (B "Ss") ⋅ PClass (B "Tt") ⋅ PClass (B "Aa") ⋅ PClass (B "Rr") ⋅
  PClass (B "Tt") ⋅ PClass (B "Ss") ⋅ PRule R_WB ⋅ PRule R_sp ⋅ PClass (B "Ww") ⋅
  PClass (B "Ii") ⋅ PClass (B "Tt") ⋅ PClass (B "Hh") ⋅
  PRule R_WB) (QErr (B "STARTS WITH")).

(** parser.leg:934 *)
Definition g_ENDS_WITH : cexp :=
  PErr (PClass (B "Ee") ⋅ PClass (B "Nn") ⋅ PClass (B "Dd") ⋅ PClass (B "Ss") ⋅
  PRule R_WB ⋅ PRule R_sp ⋅ PClass (B "Ww") ⋅ PClass (B "Ii") ⋅ PClass (B "Tt") ⋅
  PClass (B "Hh") ⋅ PRule R_WB) (QErr (B "ENDS WITH")).

(** parser.leg:935 *)
Definition g_CONTAINS : cexp :=
  PErr (PClass (B "Cc") ⋅ PClass (B "Oo") ⋅ PClass (B "Nn") ⋅ PClass (B "Tt") ⋅
  PClass (B "Aa") ⋅ PClass (B "Ii") ⋅ PClass (B "Nn") ⋅ PClass (B "Ss") ⋅
  PRule R_WB) (QErr (B "CONTAINS")).

(** parser.leg:936 *)
Definition g_IS_NULL : cexp :=
  PErr (PClass (B "Ii") ⋅ PClass (B "Ss") ⋅ PRule R_WB ⋅ PRule R_sp ⋅ PClass (B "Nn") ⋅
  PClass (B "Uu") ⋅ PClass (B "Ll") ⋅ PClass (B "Ll") ⋅ PRule R_WB) (QErr (B "IS NULL")).

(** parser.leg:937 *)
Definition g_IS_NOT_NULL : cexp :=
  PErr (PClass (B "Ii") ⋅ PClass (B "Ss") ⋅ PRule R_WB ⋅ PRule R_sp ⋅ PClass (B "Nn") ⋅
  PClass (B "Oo") ⋅ PClass (B "Tt") ⋅ PRule R_WB ⋅ PRule R_sp ⋅ PClass (B "Nn") ⋅
  PClass (B "Uu") ⋅ PClass (B "Ll") ⋅ PClass (B "Ll") ⋅
  PRule R_WB) (QErr (B "IS NOT NULL")).

(** parser.leg:938 *)
Definition g_DOT : cexp :=
  PErr (PChar "."%char) (QErr (B "'.'")).

(** parser.leg:939 *)
Definition g_DOT_STAR : cexp :=
  PErr (PChar "."%char ⋅ PRule R_sp ⋅ PChar "*"%char) (QErr (B "'.*'")).

(** parser.leg:941 *)
Definition g_COLON : cexp :=
  PErr (PChar ":"%char) (QErr (B "':'")).

(** parser.leg:942 *)
Definition g_SEMICOLON : cexp :=
  PErr (PChar ";"%char) (QErr (B "';'")).

(** parser.leg:943 *)
Definition g_COMMA : cexp :=
  PErr (PChar ","%char) (QErr (B "','")).

(** parser.leg:944 *)
Definition g_STAR : cexp :=
  PErr (PChar "*"%char) (QErr (B "'*'")).

(** parser.leg:945 *)
Definition g_PIPE : cexp :=
  PErr (PChar "|"%char) (QErr (B "'|'")).

(** parser.leg:946 *)
Definition g_DASH : cexp :=
  PErr (PChar "-"%char) (QErr (B "'-'")).

(** parser.leg:947 *)
Definition g_LEFT_PAREN : cexp :=
  PErr (PChar "("%char) (QErr (B "'('")).

(** parser.leg:948 *)
Definition g_RIGHT_PAREN : cexp :=
  PErr (PChar ")"%char) (QErr (B "')'")).

(** parser.leg:949 *)
Definition g_LEFT_SQ_PAREN : cexp :=
  PErr (PChar "["%char) (QErr (B "'['")).

(** parser.leg:950 *)
Definition g_RIGHT_SQ_PAREN : cexp :=
  PErr (PChar "]"%char) (QErr (B "']'")).

(** parser.leg:951 *)
Definition g_LEFT_CURLY : cexp :=
  PErr (PChar "{"%char) (QErr (B "'{'")).

(** parser.leg:952 *)
Definition g_RIGHT_CURLY : cexp :=
  PErr (PChar "}"%char) (QErr (B "'}'")).

(** parser.leg:953 *)
Definition g_ELLIPSIS : cexp :=
  PErr (PStr (B "..")) (QErr (B "'..'")).

(** parser.leg:954 *)
Definition g_LEFT_ARROW_HEAD : cexp :=
  PErr (PChar "<"%char) (QErr (B "'<'")).

(** parser.leg:955 *)
Definition g_RIGHT_ARROW_HEAD : cexp :=
  PErr (PChar ">"%char) (QErr (B "'>'")).

(** parser.leg:958-960 *)
Definition g_CREATE_CONSTRAINT_ON : cexp :=
  PClass (B "Cc") ⋅ PErr (PClass (B "Rr") ⋅ PClass (B "Ee") ⋅ PClass (B "Aa") ⋅
  PClass (B "Tt") ⋅ PClass (B "Ee") ⋅ PRule R_WB ⋅ PRule R_sp ⋅ PClass (B "Cc") ⋅
  PClass (B "Oo") ⋅ PClass (B "Nn") ⋅ PClass (B "Ss") ⋅ PClass (B "Tt") ⋅
  PClass (B "Rr") ⋅ PClass (B "Aa") ⋅ PClass (B "Ii") ⋅ PClass (B "Nn") ⋅
  PClass (B "Tt") ⋅ PRule R_WB ⋅ PRule R_sp ⋅ PClass (B "Oo") ⋅ PClass (B "Nn") ⋅
  PRule R_WB ⋅ PRule R_sp) (QErr (B "CREATE CONSTRAINT ON")).

(** parser.leg:961-963 *)
Definition g_CREATE_INDEX_ON : cexp :=
  PClass (B "Cc") ⋅ PErr (PClass (B "Rr") ⋅ PClass (B "Ee") ⋅ PClass (B "Aa") ⋅
  PClass (B "Tt") ⋅ PClass (B "Ee") ⋅ PRule R_WB ⋅ PRule R_sp ⋅ PClass (B "Ii") ⋅
  PClass (B "Nn") ⋅ PClass (B "Dd") ⋅ PClass (B "Ee") ⋅ PClass (B "Xx") ⋅ PRule R_WB ⋅
  PRule R_sp ⋅ PClass (B "Oo") ⋅ PClass (B "Nn") ⋅ PRule R_WB ⋅
  PRule R_sp) (QErr (B "CREATE INDEX ON")).

(** parser.leg:964-966 *)
Definition g_DROP_CONSTRAINT_ON : cexp :=
  PClass (B "Dd") ⋅ PErr (PClass (B "Rr") ⋅ PClass (B "Oo") ⋅ PClass (B "Pp") ⋅
  PRule R_WB ⋅ PRule R_sp ⋅ PClass (B "Cc") ⋅ PClass (B "Oo") ⋅ PClass (B "Nn") ⋅
  PClass (B "Ss") ⋅ PClass (B "Tt") ⋅ PClass (B "Rr") ⋅ PClass (B "Aa") ⋅
  PClass (B "Ii") ⋅ PClass (B "Nn") ⋅ PClass (B "Tt") ⋅ PRule R_WB ⋅ PRule R_sp ⋅
  PClass (B "Oo") ⋅ PClass (B "Nn") ⋅ PRule R_WB ⋅
  PRule R_sp) (QErr (B "DROP CONSTRAINT ON")).

(** parser.leg:967-968 *)
Definition g_DROP_INDEX_ON : cexp :=
  PClass (B "Dd") ⋅ PErr (PClass (B "Rr") ⋅ PClass (B "Oo") ⋅ PClass (B "Pp") ⋅
  PRule R_WB ⋅ PRule R_sp ⋅ PClass (B "Ii") ⋅ PClass (B "Nn") ⋅ PClass (B "Dd") ⋅
  PClass (B "Ee") ⋅ PClass (B "Xx") ⋅ PRule R_WB ⋅ PRule R_sp ⋅ PClass (B "Oo") ⋅
  PClass (B "Nn") ⋅ PRule R_WB ⋅ PRule R_sp) (QErr (B "DROP INDEX ON")).

(** parser.leg:970 *)
Definition g_ASSERT : cexp :=
  PErr (PClass (B "Aa") ⋅ PClass (B "Ss") ⋅ PClass (B "Ss") ⋅ PClass (B "Ee") ⋅
  PClass (B "Rr") ⋅ PClass (B "Tt") ⋅ PRule R_WB ⋅ PRule R_sp) (QErr (B "ASSERT")).

(** parser.leg:971 *)
Definition g_IS_UNIQUE : cexp :=
  PErr (PClass (B "Ii") ⋅ PClass (B "Ss") ⋅ PRule R_WB ⋅ PRule R_sp ⋅ PClass (B "Uu") ⋅
  PClass (B "Nn") ⋅ PClass (B "Ii") ⋅ PClass (B "Qq") ⋅ PClass (B "Uu") ⋅
  PClass (B "Ee") ⋅ PRule R_WB ⋅ PRule R_sp) (QErr (B "IS UNIQUE")).

(** parser.leg:972 *)
Definition g_DROP : cexp :=
  PClass (B "Dd") ⋅ PClass (B "Rr") ⋅ PClass (B "Oo") ⋅ PClass (B "Pp") ⋅ PRule R_WB ⋅
  PRule R_sp.

(** parser.leg:975-977 *)
Definition g_USING_PERIODIC_COMMIT : cexp :=
  PClass (B "Uu") ⋅ PErr (PClass (B "Ss") ⋅ PClass (B "Ii") ⋅ PClass (B "Nn") ⋅
  PClass (B "Gg") ⋅ PRule R_WB ⋅ PRule R_sp ⋅ PClass (B "Pp") ⋅ PClass (B "Ee") ⋅
  PClass (B "Rr") ⋅ PClass (B "Ii") ⋅ PClass (B "Oo") ⋅ PClass (B "Dd") ⋅
  PClass (B "Ii") ⋅ PClass (B "Cc") ⋅ PRule R_WB ⋅ PRule R_sp ⋅ PClass (B "Cc") ⋅
  PClass (B "Oo") ⋅ PClass (B "Mm") ⋅ PClass (B "Mm") ⋅ PClass (B "Ii") ⋅
  PClass (B "Tt") ⋅ PRule R_WB ⋅ PRule R_sp) (QErr (B "USING PERIODIC COMMIT")).

(** parser.leg:978 *)
Definition g_LOADCSV : cexp :=
  PClass (B "Ll") ⋅ PErr (PClass (B "Oo") ⋅ PClass (B "Aa") ⋅ PClass (B "Dd") ⋅
  PRule R_WB ⋅ PRule R_sp ⋅ PClass (B "Cc") ⋅ PClass (B "Ss") ⋅ PClass (B "Vv") ⋅
  PRule R_WB ⋅ PRule R_sp) (QErr (B "LOAD CSV")).

(** parser.leg:979 *)
Definition g_START : cexp :=
  PClass (B "Ss") ⋅ PErr (PClass (B "Tt") ⋅ PClass (B "Aa") ⋅ PClass (B "Rr") ⋅
  PClass (B "Tt") ⋅ PRule R_WB ⋅ PRule R_sp) (QErr (B "START")).

(** parser.leg:980 *)
Definition g_MATCH : cexp :=
  PClass (B "Mm") ⋅ PErr (PClass (B "Aa") ⋅ PClass (B "Tt") ⋅ PClass (B "Cc") ⋅
  PClass (B "Hh") ⋅ PRule R_WB ⋅ PRule R_sp) (QErr (B "MATCH")).

(** parser.leg:981-982 *)
Definition g_OPTIONAL_MATCH : cexp :=
  PClass (B "Oo") ⋅ PErr (PClass (B "Pp") ⋅ PClass (B "Tt") ⋅ PClass (B "Ii") ⋅
  PClass (B "Oo") ⋅ PClass (B "Nn") ⋅ PClass (B "Aa") ⋅ PClass (B "Ll") ⋅ PRule R_WB ⋅
  PRule R_sp ⋅ PRule R_MATCH) (QErr (B "OPTIONAL MATCH")).

(** parser.leg:983 *)
Definition g_UNWIND : cexp :=
  PClass (B "Uu") ⋅ PErr (PClass (B "Nn") ⋅ PClass (B "Ww") ⋅ PClass (B "Ii") ⋅
  PClass (B "Nn") ⋅ PClass (B "Dd") ⋅ PRule R_WB ⋅ PRule R_sp) (QErr (B "UNWIND")).

(** parser.leg:984 *)
Definition g_MERGE : cexp :=
  PClass (B "Mm") ⋅ PErr (PClass (B "Ee") ⋅ PClass (B "Rr") ⋅ PClass (B "Gg") ⋅
  PClass (B "Ee") ⋅ PRule R_WB ⋅ PRule R_sp) (QErr (B "MERGE")).

(** parser.leg:985 *)
Definition g_CREATE : cexp :=
  PClass (B "Cc") ⋅ PErr (PClass (B "Rr") ⋅ PClass (B "Ee") ⋅ PClass (B "Aa") ⋅
  PClass (B "Tt") ⋅ PClass (B "Ee") ⋅ PRule R_WB ⋅ PRule R_sp) (QErr (B "CREATE")).

(** parser.leg:986-987 *)
Definition g_CREATE_UNIQUE : cexp :=
  PClass (B "Cc") ⋅ PErr (PClass (B "Rr") ⋅ PClass (B "Ee") ⋅ PClass (B "Aa") ⋅
  PClass (B "Tt") ⋅ PClass (B "Ee") ⋅ PRule R_WB ⋅ PRule R_sp ⋅ PClass (B "Uu") ⋅
  PClass (B "Nn") ⋅ PClass (B "Ii") ⋅ PClass (B "Qq") ⋅ PClass (B "Uu") ⋅
  PClass (B "Ee") ⋅ PRule R_WB ⋅ PRule R_sp) (QErr (B "CREATE UNIQUE")).

(** parser.leg:988 *)
Definition g_SET : cexp :=
  PClass (B "Ss") ⋅ PErr (PClass (B "Ee") ⋅ PClass (B "Tt") ⋅ PRule R_WB ⋅
  PRule R_sp) (QErr (B "SET")).

(** parser.leg:989 *)
Definition g_DELETE : cexp :=
  PClass (B "Dd") ⋅ PErr (PClass (B "Ee") ⋅ PClass (B "Ll") ⋅ PClass (B "Ee") ⋅
  PClass (B "Tt") ⋅ PClass (B "Ee") ⋅ PRule R_WB ⋅ PRule R_sp) (QErr (B "DELETE")).

(** parser.leg:990-991 *)
Definition g_DETACH_DELETE : cexp :=
  PClass (B "Dd") ⋅ PErr (PClass (B "Ee") ⋅ PClass (B "Tt") ⋅ PClass (B "Aa") ⋅
  PClass (B "Cc") ⋅ PClass (B "Hh") ⋅ PRule R_WB ⋅ PRule R_sp ⋅ PClass (B "Dd") ⋅
  PClass (B "Ee") ⋅ PClass (B "Ll") ⋅ PClass (B "Ee") ⋅ PClass (B "Tt") ⋅
  PClass (B "Ee") ⋅ PRule R_WB ⋅ PRule R_sp) (QErr (B "DETACH DELETE")).

(** parser.leg:992 *)
Definition g_REMOVE : cexp :=
  PClass (B "Rr") ⋅ PErr (PClass (B "Ee") ⋅ PClass (B "Mm") ⋅ PClass (B "Oo") ⋅
  PClass (B "Vv") ⋅ PClass (B "Ee") ⋅ PRule R_WB ⋅ PRule R_sp) (QErr (B "REMOVE")).

(** parser.leg:993 *)
Definition g_FOREACH : cexp :=
  PClass (B "Ff") ⋅ PErr (PClass (B "Oo") ⋅ PClass (B "Rr") ⋅ PClass (B "Ee") ⋅
  PClass (B "Aa") ⋅ PClass (B "Cc") ⋅ PClass (B "Hh") ⋅ PRule R_WB ⋅
  PRule R_sp) (QErr (B "FOREACH")).

(** parser.leg:994 *)
Definition g_WITH : cexp :=
  PClass (B "Ww") ⋅ PErr (PClass (B "Ii") ⋅ PClass (B "Tt") ⋅ PClass (B "Hh") ⋅
  PRule R_WB ⋅ PRule R_sp) (QErr (B "WITH")).

(** parser.leg:995 *)
Definition g_CALL : cexp :=
  PClass (B "Cc") ⋅ PErr (PClass (B "Aa") ⋅ PClass (B "Ll") ⋅ PClass (B "Ll") ⋅
  PRule R_WB ⋅ PRule R_sp) (QErr (B "CALL")).

(** parser.leg:996 *)
Definition g_RETURN : cexp :=
  PClass (B "Rr") ⋅ PErr (PClass (B "Ee") ⋅ PClass (B "Tt") ⋅ PClass (B "Uu") ⋅
  PClass (B "Rr") ⋅ PClass (B "Nn") ⋅ PRule R_WB ⋅ PRule R_sp) (QErr (B "RETURN")).

(** parser.leg:997 *)
Definition g_UNION : cexp :=
  PClass (B "Uu") ⋅ PErr (PClass (B "Nn") ⋅ PClass (B "Ii") ⋅ PClass (B "Oo") ⋅
  PClass (B "Nn") ⋅ PRule R_WB ⋅ PRule R_sp) (QErr (B "UNION")).

(** parser.leg:999 *)
Definition g_node : cexp :=
  PErr (PClass (B "Nn") ⋅ PClass (B "Oo") ⋅ PClass (B "Dd") ⋅ PClass (B "Ee") ⋅
  PRule R_WB ⋅ PRule R_sp) (QErr (B "node")).

(** parser.leg:1000-1001 *)
Definition g_relationship : cexp :=
  PErr (PClass (B "Rr") ⋅ PClass (B "Ee") ⋅ PClass (B "Ll") ⋅ PClass (B "Aa") ⋅
  PClass (B "Tt") ⋅ PClass (B "Ii") ⋅ PClass (B "Oo") ⋅ PClass (B "Nn") ⋅
  PClass (B "Ss") ⋅ PClass (B "Hh") ⋅ PClass (B "Ii") ⋅ PClass (B "Pp") ⋅ PRule R_WB ⋅
  PRule R_sp) (QErr (B "relatioinship")).

(** parser.leg:1002 *)
Definition g_rel : cexp :=
  PErr (PClass (B "Rr") ⋅ PClass (B "Ee") ⋅ PClass (B "Ll") ⋅ PRule R_WB ⋅
  PRule R_sp) (QErr (B "rel")).

(** parser.leg:1004-1005 *)
Definition g_USING_INDEX : cexp :=
  PErr (PClass (B "Uu") ⋅ PClass (B "Ss") ⋅ PClass (B "Ii") ⋅ PClass (B "Nn") ⋅
  PClass (B "Gg") ⋅ PRule R_WB ⋅ PRule R_sp ⋅ PClass (B "Ii") ⋅ PClass (B "Nn") ⋅
  PClass (B "Dd") ⋅ PClass (B "Ee") ⋅ PClass (B "Xx") ⋅ PRule R_WB ⋅
  PRule R_sp) (QErr (B "USING INDEX")).

(** parser.leg:1006-1007 *)
Definition g_USING_JOIN_ON : cexp :=
  PErr (PClass (B "Uu") ⋅ PClass (B "Ss") ⋅ PClass (B "Ii") ⋅ PClass (B "Nn") ⋅
  PClass (B "Gg") ⋅ PRule R_WB ⋅ PRule R_sp ⋅ PClass (B "Jj") ⋅ PClass (B "Oo") ⋅
  PClass (B "Ii") ⋅ PClass (B "Nn") ⋅ PRule R_WB ⋅ PRule R_sp ⋅ PClass (B "Oo") ⋅
  PClass (B "Nn") ⋅ PRule R_WB ⋅ PRule R_sp) (QErr (B "USING JOIN ON")).

(** parser.leg:1008-1009 *)
Definition g_USING_SCAN : cexp :=
  PErr (PClass (B "Uu") ⋅ PClass (B "Ss") ⋅ PClass (B "Ii") ⋅ PClass (B "Nn") ⋅
  PClass (B "Gg") ⋅ PRule R_WB ⋅ PRule R_sp ⋅ PClass (B "Ss") ⋅ PClass (B "Cc") ⋅
  PClass (B "Aa") ⋅ PClass (B "Nn") ⋅ PRule R_WB ⋅ PRule R_sp) (QErr (B "USING SCAN")).

(** parser.leg:1011 *)
Definition g_ON_MATCH : cexp :=
  PErr (PClass (B "Oo") ⋅ PClass (B "Nn") ⋅ PRule R_WB ⋅ PRule R_sp ⋅ PClass (B "Mm") ⋅
  PClass (B "Aa") ⋅ PClass (B "Tt") ⋅ PClass (B "Cc") ⋅ PClass (B "Hh") ⋅ PRule R_WB ⋅
  PRule R_sp) (QErr (B "ON MATCH")).

(** parser.leg:1012 *)
Definition g_ON_CREATE : cexp :=
  PErr (PClass (B "Oo") ⋅ PClass (B "Nn") ⋅ PRule R_WB ⋅ PRule R_sp ⋅ PClass (B "Cc") ⋅
  PClass (B "Rr") ⋅ PClass (B "Ee") ⋅ PClass (B "Aa") ⋅ PClass (B "Tt") ⋅
  PClass (B "Ee") ⋅ PRule R_WB ⋅ PRule R_sp) (QErr (B "ON CREATE")).

(** parser.leg:1014 *)
Definition g_WHERE : cexp :=
  PErr (PClass (B "Ww") ⋅ PClass (B "Hh") ⋅ PClass (B "Ee") ⋅ PClass (B "Rr") ⋅
  PClass (B "Ee") ⋅ PRule R_WB ⋅ PRule R_sp) (QErr (B "WHERE")).

(** parser.leg:1016 *)
Definition g_AS : cexp :=
  PErr (PClass (B "Aa") ⋅ PClass (B "Ss") ⋅ PRule R_WB ⋅ PRule R_sp) (QErr (B "AS")).

(** parser.leg:1017 *)
Definition g_DISTINCT : cexp :=
  PErr (PClass (B "Dd") ⋅ PClass (B "Ii") ⋅ PClass (B "Ss") ⋅ PClass (B "Tt") ⋅
  PClass (B "Ii") ⋅ PClass (B "Nn") ⋅ PClass (B "Cc") ⋅ PClass (B "Tt") ⋅ PRule R_WB ⋅
  PRule R_sp) (QErr (B "DISTINCT")).

(** parser.leg:1019 *)
Definition g_YIELD : cexp :=
  PErr (PClass (B "Yy") ⋅ PClass (B "Ii") ⋅ PClass (B "Ee") ⋅ PClass (B "Ll") ⋅
  PClass (B "Dd") ⋅ PRule R_WB ⋅ PRule R_sp) (QErr (B "YIELD")).

(** parser.leg:1021 *)
Definition g_ORDER_BY : cexp :=
  PErr (PClass (B "Oo") ⋅ PClass (B "Rr") ⋅ PClass (B "Dd") ⋅ PClass (B "Ee") ⋅
  PClass (B "Rr") ⋅ PRule R_WB ⋅ PRule R_sp ⋅ PClass (B "Bb") ⋅ PClass (B "Yy") ⋅
  PRule R_WB ⋅ PRule R_sp) (QErr (B "ORDER BY")).

(** parser.leg:1022 *)
Definition g_ASCENDING : cexp :=
  PErr (PClass (B "Aa") ⋅ PClass (B "Ss") ⋅ PClass (B "Cc") ⋅ PClass (B "Ee") ⋅
  PClass (B "Nn") ⋅ PClass (B "Dd") ⋅ PClass (B "Ii") ⋅ PClass (B "Nn") ⋅
  PClass (B "Gg") ⋅ PRule R_WB ⋅ PRule R_sp) (QErr (B "ASCENDING")).

(** parser.leg:1023 *)
Definition g_ASC : cexp :=
  PErr (PClass (B "Aa") ⋅ PClass (B "Ss") ⋅ PClass (B "Cc") ⋅ PRule R_WB ⋅
  PRule R_sp) (QErr (B "ASC")).

(** parser.leg:1024 *)
Definition g_DESCENDING : cexp :=
  PErr (PClass (B "Dd") ⋅ PClass (B "Ee") ⋅ PClass (B "Ss") ⋅ PClass (B "Cc") ⋅
  PClass (B "Ee") ⋅ PClass (B "Nn") ⋅ PClass (B "Dd") ⋅ PClass (B "Ii") ⋅
  PClass (B "Nn") ⋅ PClass (B "Gg") ⋅ PRule R_WB ⋅ PRule R_sp) (QErr (B "DESCENDING")).

(** parser.leg:1025 *)
Definition g_DESC : cexp :=
  PErr (PClass (B "Dd") ⋅ PClass (B "Ee") ⋅ PClass (B "Ss") ⋅ PClass (B "Cc") ⋅
  PRule R_WB ⋅ PRule R_sp) (QErr (B "DESC")).

(** parser.leg:1026 *)
Definition g_SKIP : cexp :=
  PErr (PClass (B "Ss") ⋅ PClass (B "Kk") ⋅ PClass (B "Ii") ⋅ PClass (B "Pp") ⋅
  PRule R_WB ⋅ PRule R_sp) (QErr (B "SKIP")).

(** parser.leg:1027 *)
Definition g_LIMIT : cexp :=
  PErr (PClass (B "Ll") ⋅ PClass (B "Ii") ⋅ PClass (B "Mm") ⋅ PClass (B "Ii") ⋅
  PClass (B "Tt") ⋅ PRule R_WB ⋅ PRule R_sp) (QErr (B "LIMIT")).

(** parser.leg:1029 *)
Definition g_CASE : cexp :=
  PErr (PClass (B "Cc") ⋅ PClass (B "Aa") ⋅ PClass (B "Ss") ⋅ PClass (B "Ee") ⋅
  PRule R_WB ⋅ PRule R_sp) (QErr (B "CASE")).

(** parser.leg:1030 *)
Definition g_WHEN : cexp :=
  PErr (PClass (B "Ww") ⋅ PClass (B "Hh") ⋅ PClass (B "Ee") ⋅ PClass (B "Nn") ⋅
  PRule R_WB ⋅ PRule R_sp) (QErr (B "WHEN")).

(** parser.leg:1031 *)
Definition g_THEN : cexp :=
  PErr (PClass (B "Tt") ⋅ PClass (B "Hh") ⋅ PClass (B "Ee") ⋅ PClass (B "Nn") ⋅
  PRule R_WB ⋅ PRule R_sp) (QErr (B "THEN")).

(** parser.leg:1032 *)
Definition g_ELSE : cexp :=
  PErr (PClass (B "Ee") ⋅ PClass (B "Ll") ⋅ PClass (B "Ss") ⋅ PClass (B "Ee") ⋅
  PRule R_WB ⋅ PRule R_sp) (QErr (B "ELSE")).

(** parser.leg:1033 *)
Definition g_END : cexp :=
  PErr (PClass (B "Ee") ⋅ PClass (B "Nn") ⋅ PClass (B "Dd") ⋅ PRule R_WB) (QErr (B "END")).

(** parser.leg:1035 *)
Definition g_FILTER : cexp :=
  PErr (PClass (B "Ff") ⋅ PClass (B "Ii") ⋅ PClass (B "Ll") ⋅ PClass (B "Tt") ⋅
  PClass (B "Ee") ⋅ PClass (B "Rr") ⋅ PRule R_WB ⋅ PRule R_sp) (QErr (B "FILTER")).

(** parser.leg:1036 *)
Definition g_EXTRACT : cexp :=
  PErr (PClass (B "Ee") ⋅ PClass (B "Xx") ⋅ PClass (B "Tt") ⋅ PClass (B "Rr") ⋅
  PClass (B "Aa") ⋅ PClass (B "Cc") ⋅ PClass (B "Tt") ⋅ PRule R_WB ⋅
  PRule R_sp) (QErr (B "EXTRACT")).

(** parser.leg:1037 *)
Definition g_REDUCE : cexp :=
  PErr (PClass (B "Rr") ⋅ PClass (B "Ee") ⋅ PClass (B "Dd") ⋅ PClass (B "Uu") ⋅
  PClass (B "Cc") ⋅ PClass (B "Ee") ⋅ PRule R_WB ⋅ PRule R_sp) (QErr (B "REDUCE")).

(** parser.leg:1038 *)
Definition g_ALL : cexp :=
  PErr (PClass (B "Aa") ⋅ PClass (B "Ll") ⋅ PClass (B "Ll") ⋅ PRule R_WB ⋅
  PRule R_sp) (QErr (B "ALL")).

(** parser.leg:1039 *)
Definition g_ANY : cexp :=
  PErr (PClass (B "Aa") ⋅ PClass (B "Nn") ⋅ PClass (B "Yy") ⋅ PRule R_WB ⋅
  PRule R_sp) (QErr (B "ANY")).

(** parser.leg:1040 *)
Definition g_SINGLE : cexp :=
  PErr (PClass (B "Ss") ⋅ PClass (B "Ii") ⋅ PClass (B "Nn") ⋅ PClass (B "Gg") ⋅
  PClass (B "Ll") ⋅ PClass (B "Ee") ⋅ PRule R_WB ⋅ PRule R_sp) (QErr (B "SINGLE")).

(** parser.leg:1041 *)
Definition g_NONE : cexp :=
  PErr (PClass (B "Nn") ⋅ PClass (B "Oo") ⋅ PClass (B "Nn") ⋅ PClass (B "Ee") ⋅
  PRule R_WB ⋅ PRule R_sp) (QErr (B "NONE")).

(** parser.leg:1043-1044 *)
Definition g_WITH_HEADERS : cexp :=
  PErr (PRule R_WITH ⋅ PClass (B "Hh") ⋅ PClass (B "Ee") ⋅ PClass (B "Aa") ⋅
  PClass (B "Dd") ⋅ PClass (B "Ee") ⋅ PClass (B "Rr") ⋅ PClass (B "Ss") ⋅ PRule R_WB ⋅
  PRule R_sp) (QErr (B "WITH HEADERS")).

(** parser.leg:1045 *)
Definition g_FROM : cexp :=
  PErr (PClass (B "Ff") ⋅ PClass (B "Rr") ⋅ PClass (B "Oo") ⋅ PClass (B "Mm") ⋅
  PRule R_WB ⋅ PRule R_sp) (QErr (B "FROM")).

(** parser.leg:1046-1047 *)
Definition g_FIELDTERMINATOR : cexp :=
  PErr (PClass (B "Ff") ⋅ PClass (B "Ii") ⋅ PClass (B "Ee") ⋅ PClass (B "Ll") ⋅
  PClass (B "Dd") ⋅ PClass (B "Tt") ⋅ PClass (B "Ee") ⋅ PClass (B "Rr") ⋅
  PClass (B "Mm") ⋅ PClass (B "Ii") ⋅ PClass (B "Nn") ⋅ PClass (B "Aa") ⋅
  PClass (B "Tt") ⋅ PClass (B "Oo") ⋅ PClass (B "Rr") ⋅ PRule R_WB ⋅
  PRule R_sp) (QErr (B "FIELDTERMINATOR")).

(** parser.leg:1049 *)
Definition g_TRUE : cexp :=
  PErr (PClass (B "Tt") ⋅ PClass (B "Rr") ⋅ PClass (B "Uu") ⋅ PClass (B "Ee") ⋅
  PRule R_WB) (QErr (B "TRUE")).

(** parser.leg:1050 *)
Definition g_FALSE : cexp :=
  PErr (PClass (B "Ff") ⋅ PClass (B "Aa") ⋅ PClass (B "Ll") ⋅ PClass (B "Ss") ⋅
  PClass (B "Ee") ⋅ PRule R_WB) (QErr (B "FALSE")).

(** parser.leg:1051 *)
Definition g_NULL : cexp :=
  PErr (PClass (B "Nn") ⋅ PClass (B "Uu") ⋅ PClass (B "Ll") ⋅ PClass (B "Ll") ⋅
  PRule R_WB) (QErr (B "NULL")).

(** parser.leg:1053-1054 *)
Definition g_SHORTESTPATH : cexp :=
  PErr (PClass (B "Ss") ⋅ PClass (B "Hh") ⋅ PClass (B "Oo") ⋅ PClass (B "Rr") ⋅
  PClass (B "Tt") ⋅ PClass (B "Ee") ⋅ PClass (B "Ss") ⋅ PClass (B "Tt") ⋅
  PClass (B "Pp") ⋅ PClass (B "Aa") ⋅ PClass (B "Tt") ⋅ PClass (B "Hh") ⋅ PRule R_WB ⋅
  PRule R_sp) (QErr (B "shortestPath")).

(** parser.leg:1055-1056 *)
Definition g_ALLSHORTESTPATHS : cexp :=
  PErr (PClass (B "Aa") ⋅ PClass (B "Ll") ⋅ PClass (B "Ll") ⋅ PClass (B "Ss") ⋅
  PClass (B "Hh") ⋅ PClass (B "Oo") ⋅ PClass (B "Rr") ⋅ PClass (B "Tt") ⋅
  PClass (B "Ee") ⋅ PClass (B "Ss") ⋅ PClass (B "Tt") ⋅ PClass (B "Pp") ⋅
  PClass (B "Aa") ⋅ PClass (B "Tt") ⋅ PClass (B "Hh") ⋅ PClass (B "Ss") ⋅ PRule R_WB ⋅
  PRule R_sp) (QErr (B "allShortestPaths")).

(** parser.leg:1058 *)
Definition g_WB : cexp :=
  PAnd (PRule R_EOF ∥ PNot (PRule R_sym_part) ⋅ PDot).

(** parser.leg:1066-1070 *)
Definition g_skip_to_directive : cexp :=
  PPred (QDo TBlockStart) ⋅ PDot ⋅ PStar (PNot (PRule R_EOF ∥ PRule R_SEMICOLON ∥
  (PRule R_WS ∥ PRule R_comment) ⋅ PRule R_resync_directive) ⋅ PDot) ⋅
  PPred (QDo TBlockEnd) ⋅ PAct (TDo [SLet LRet (RMk K_skip [])]).

(** parser.leg:1071-1073 *)
Definition g_resync_directive : cexp :=
  PRule R_resync_statement ∥ PRule R_COLON.

(** parser.leg:1075-1079 *)
Definition g_skip_to_statement : cexp :=
  PPred (QDo TBlockStart) ⋅ PDot ⋅ PStar (PNot (PRule R_EOF ∥ PRule R_SEMICOLON ∥
  (PRule R_WS ∥ PRule R_comment) ⋅ PRule R_resync_statement) ⋅ PDot) ⋅
  PPred (QDo TBlockEnd) ⋅ PAct (TDo [SLet LRet (RMk K_skip [])]).

(** parser.leg:1080-1084 *)
Definition g_resync_statement : cexp :=
  PRule R_resync_clause ∥ PRule R_CYPHER ∥ PRule R_PROFILE ∥ PRule R_EXPLAIN.

(** parser.leg:1086-1090 *)
Definition g_skip_to_clause : cexp :=
  PPred (QDo TBlockStart) ⋅ PDot ⋅ PStar (PNot (PRule R_EOF ∥ PRule R_SEMICOLON ∥
  (PRule R_WS ∥ PRule R_comment) ⋅ PRule R_resync_clause) ⋅ PDot) ⋅
  PPred (QDo TBlockEnd) ⋅ PAct (TDo [SLet LRet (RMk K_skip [])]).

(** parser.leg:1091-1105 *)
Definition g_resync_clause : cexp :=
  PRule R_LOADCSV ∥ PRule R_START ∥ PRule R_MATCH ∥ PRule R_UNWIND ∥ PRule R_MERGE ∥
  PRule R_CREATE ∥ PRule R_SET ∥ PRule R_DELETE ∥ PRule R_REMOVE ∥ PRule R_FOREACH ∥
  PRule R_WITH ∥ PRule R_CALL ∥ PRule R_RETURN ∥ PRule R_DROP.

(** parser.leg:1113-1114 *)
Definition g__block_start_ : cexp :=
  PPred (QDo TBlockStart).

(** parser.leg:1116-1117 *)
Definition g__block_end_ : cexp :=
  PPred (QDo TBlockEnd).

(** parser.leg:1118-1119 *)
Definition g__block_replace_ : cexp :=
  PPred (QDo TBlockReplace).

(** parser.leg:1120-1121 *)
Definition g__block_merge_ : cexp :=
  PPred (QDo TBlockMerge).

(** parser.leg:1123 *)
Definition g__empty_ : cexp :=
  PPred (QConst true).

(** parser.leg:1124 *)
Definition g__none_ : cexp :=
  PPred (QConst false).

(** parser.leg:1125 *)
Definition g__null_ : cexp :=
  PRule R__empty_ ⋅ PAct (TDo [SLet LRet (RArg ANull)]).

(** parser.leg:1126 *)
Definition g__cut_ : cexp :=
  PRule R__empty_.

(** parser.leg:1127 *)
Definition g__line_start_ : cexp :=
  PPred (QLineStart).

(** parser.leg:1128 *)
Definition g__error_ : cexp :=
  PPred (QRecordError).

Definition CG (r : rule) : cexp :=
  match r with
  | R___entry_points => g___entry_points
  | R_directive => g_directive
  | R__directive => g__directive
  | R___directive => g___directive
  | R_statement => g_statement
  | R__statement => g__statement
  | R___statement => g___statement
  | R_cypher_statement => g_cypher_statement
  | R_statement_option => g_statement_option
  | R_cypher_option => g_cypher_option
  | R_cypher_version => g_cypher_version
  | R_cypher_param => g_cypher_param
  | R_cypher_param_name => g_cypher_param_name
  | R_cypher_param_val => g_cypher_param_val
  | R_profile_option => g_profile_option
  | R_explain_option => g_explain_option
  | R_schema_command => g_schema_command
  | R_create_index => g_create_index
  | R_create_constraint => g_create_constraint
  | R_drop_index => g_drop_index
  | R_drop_constraint => g_drop_constraint
  | R_query => g_query
  | R_query_hints => g_query_hints
  | R_clauses => g_clauses
  | R__clauses => g__clauses
  | R_periodic_commit => g_periodic_commit
  | R_clause => g_clause
  | R_loadcsv_clause => g_loadcsv_clause
  | R_start_clause => g_start_clause
  | R_start_point => g_start_point
  | R_node_ids => g_node_ids
  | R_match_clause => g_match_clause
  | R_hint => g_hint
  | R_merge_clause => g_merge_clause
  | R_merge_action => g_merge_action
  | R_merge_action_set => g_merge_action_set
  | R_create_clause => g_create_clause
  | R_set_clause => g_set_clause
  | R_set_item => g_set_item
  | R_delete_clause => g_delete_clause
  | R_remove_clause => g_remove_clause
  | R_remove_item => g_remove_item
  | R_foreach_clause => g_foreach_clause
  | R_with_clause => g_with_clause
  | R_additional_with_projections => g_additional_with_projections
  | R_with_projection => g_with_projection
  | R_unwind_clause => g_unwind_clause
  | R_call_clause => g_call_clause
  | R_proc_projection => g_proc_projection
  | R_return_clause => g_return_clause
  | R_additional_return_projections => g_additional_return_projections
  | R_return_projection => g_return_projection
  | R_order_by => g_order_by
  | R_sort_item => g_sort_item
  | R_skip => g_skip
  | R_limit => g_limit
  | R_union_clause => g_union_clause
  | R_expression => g_expression
  | R__prec_expression => g__prec_expression
  | R__expression => g__expression
  | R__atom => g__atom
  | R_map_projection_element => g_map_projection_element
  | R_atom => g_atom
  | R_property_expression => g_property_expression
  | R_PREFIX_OP => g_PREFIX_OP
  | R_POSTFIX_OP => g_POSTFIX_OP
  | R_INFIX_OP => g_INFIX_OP
  | R_COMPARISON_OP => g_COMPARISON_OP
  | R_list_comprehension => g_list_comprehension
  | R_pattern_comprehension => g_pattern_comprehension
  | R_case_expression => g_case_expression
  | R_case_alternative => g_case_alternative
  | R_case_default => g_case_default
  | R_filter_expression => g_filter_expression
  | R_extract_expression => g_extract_expression
  | R_reduce_expression => g_reduce_expression
  | R_all_predicate => g_all_predicate
  | R_any_predicate => g_any_predicate
  | R_single_predicate => g_single_predicate
  | R_none_predicate => g_none_predicate
  | R_function_application => g_function_application
  | R_collection_literal => g_collection_literal
  | R_map_literal => g_map_literal
  | R_identifier => g_identifier
  | R_string_literal => g_string_literal
  | R_float_literal => g_float_literal
  | R_integer_literal => g_integer_literal
  | R_true_literal => g_true_literal
  | R_false_literal => g_false_literal
  | R_null_literal => g_null_literal
  | R_parameter => g_parameter
  | R_label => g_label
  | R_rel_type => g_rel_type
  | R_rel_type_name => g_rel_type_name
  | R_prop_name => g_prop_name
  | R_function_name => g_function_name
  | R_index_name => g_index_name
  | R_proc_name => g_proc_name
  | R_pattern => g_pattern
  | R_pattern_part => g_pattern_part
  | R_anon_pattern_part => g_anon_pattern_part
  | R_shortest_path_pattern => g_shortest_path_pattern
  | R_pattern_path => g_pattern_path
  | R_pattern_expression => g_pattern_expression
  | R_pattern_expression_path => g_pattern_expression_path
  | R_node_pattern => g_node_pattern
  | R_relationship_pattern => g_relationship_pattern
  | R_rel_types => g_rel_types
  | R_rel_varlength => g_rel_varlength
  | R_pattern_properties => g_pattern_properties
  | R_client_command => g_client_command
  | R_client_command_name => g_client_command_name
  | R_client_command_arg => g_client_command_arg
  | R_client_arg_string => g_client_arg_string
  | R_unquoted => g_unquoted
  | R_quoted => g_quoted
  | R_single_quoted => g_single_quoted
  | R_double_quoted => g_double_quoted
  | R_escaped_char => g_escaped_char
  | R_symbolic_name => g_symbolic_name
  | R_unescaped_symbolic_name => g_unescaped_symbolic_name
  | R_escaped_symbolic_name => g_escaped_symbolic_name
  | R_parameter_name => g_parameter_name
  | R_float_string => g_float_string
  | R_integer_string => g_integer_string
  | R_sym_start => g_sym_start
  | R_sym_part => g_sym_part
  | R_sp => g_sp
  | R_hsp => g_hsp
  | R_line_end => g_line_end
  | R_comment => g_comment
  | R_line_comment => g_line_comment
  | R_block_comment => g_block_comment
  | R_WS => g_WS
  | R_HWS => g_HWS
  | R_EOL => g_EOL
  | R_EOF => g_EOF
  | R_CYPHER => g_CYPHER
  | R_PROFILE => g_PROFILE
  | R_EXPLAIN => g_EXPLAIN
  | R_OR => g_OR
  | R_XOR => g_XOR
  | R_AND => g_AND
  | R_NOT => g_NOT
  | R_EQUAL => g_EQUAL
  | R_NEQUAL => g_NEQUAL
  | R_PLUSEQUAL => g_PLUSEQUAL
  | R_LT => g_LT
  | R_GT => g_GT
  | R_LTE => g_LTE
  | R_GTE => g_GTE
  | R_PLUS => g_PLUS
  | R_MINUS => g_MINUS
  | R_MULT => g_MULT
  | R_DIV => g_DIV
  | R_MOD => g_MOD
  | R_POW => g_POW
  | R_IN => g_IN
  | R_REGEX => g_REGEX
  | R_STARTS_WITH => g_STARTS_WITH
  | R_ENDS_WITH => g_ENDS_WITH
  | R_CONTAINS => g_CONTAINS
  | R_IS_NULL => g_IS_NULL
  | R_IS_NOT_NULL => g_IS_NOT_NULL
  | R_DOT => g_DOT
  | R_DOT_STAR => g_DOT_STAR
  | R_COLON => g_COLON
  | R_SEMICOLON => g_SEMICOLON
  | R_COMMA => g_COMMA
  | R_STAR => g_STAR
  | R_PIPE => g_PIPE
  | R_DASH => g_DASH
  | R_LEFT_PAREN => g_LEFT_PAREN
  | R_RIGHT_PAREN => g_RIGHT_PAREN
  | R_LEFT_SQ_PAREN => g_LEFT_SQ_PAREN
  | R_RIGHT_SQ_PAREN => g_RIGHT_SQ_PAREN
  | R_LEFT_CURLY => g_LEFT_CURLY
  | R_RIGHT_CURLY => g_RIGHT_CURLY
  | R_ELLIPSIS => g_ELLIPSIS
  | R_LEFT_ARROW_HEAD => g_LEFT_ARROW_HEAD
  | R_RIGHT_ARROW_HEAD => g_RIGHT_ARROW_HEAD
  | R_CREATE_CONSTRAINT_ON => g_CREATE_CONSTRAINT_ON
  | R_CREATE_INDEX_ON => g_CREATE_INDEX_ON
  | R_DROP_CONSTRAINT_ON => g_DROP_CONSTRAINT_ON
  | R_DROP_INDEX_ON => g_DROP_INDEX_ON
  | R_ASSERT => g_ASSERT
  | R_IS_UNIQUE => g_IS_UNIQUE
  | R_DROP => g_DROP
  | R_USING_PERIODIC_COMMIT => g_USING_PERIODIC_COMMIT
  | R_LOADCSV => g_LOADCSV
  | R_START => g_START
  | R_MATCH => g_MATCH
  | R_OPTIONAL_MATCH => g_OPTIONAL_MATCH
  | R_UNWIND => g_UNWIND
  | R_MERGE => g_MERGE
  | R_CREATE => g_CREATE
  | R_CREATE_UNIQUE => g_CREATE_UNIQUE
  | R_SET => g_SET
  | R_DELETE => g_DELETE
  | R_DETACH_DELETE => g_DETACH_DELETE
  | R_REMOVE => g_REMOVE
  | R_FOREACH => g_FOREACH
  | R_WITH => g_WITH
  | R_CALL => g_CALL
  | R_RETURN => g_RETURN
  | R_UNION => g_UNION
  | R_node => g_node
  | R_relationship => g_relationship
  | R_rel => g_rel
  | R_USING_INDEX => g_USING_INDEX
  | R_USING_JOIN_ON => g_USING_JOIN_ON
  | R_USING_SCAN => g_USING_SCAN
  | R_ON_MATCH => g_ON_MATCH
  | R_ON_CREATE => g_ON_CREATE
  | R_WHERE => g_WHERE
  | R_AS => g_AS
  | R_DISTINCT => g_DISTINCT
  | R_YIELD => g_YIELD
  | R_ORDER_BY => g_ORDER_BY
  | R_ASCENDING => g_ASCENDING
  | R_ASC => g_ASC
  | R_DESCENDING => g_DESCENDING
  | R_DESC => g_DESC
  | R_SKIP => g_SKIP
  | R_LIMIT => g_LIMIT
  | R_CASE => g_CASE
  | R_WHEN => g_WHEN
  | R_THEN => g_THEN
  | R_ELSE => g_ELSE
  | R_END => g_END
  | R_FILTER => g_FILTER
  | R_EXTRACT => g_EXTRACT
  | R_REDUCE => g_REDUCE
  | R_ALL => g_ALL
  | R_ANY => g_ANY
  | R_SINGLE => g_SINGLE
  | R_NONE => g_NONE
  | R_WITH_HEADERS => g_WITH_HEADERS
  | R_FROM => g_FROM
  | R_FIELDTERMINATOR => g_FIELDTERMINATOR
  | R_TRUE => g_TRUE
  | R_FALSE => g_FALSE
  | R_NULL => g_NULL
  | R_SHORTESTPATH => g_SHORTESTPATH
  | R_ALLSHORTESTPATHS => g_ALLSHORTESTPATHS
  | R_WB => g_WB
  | R_skip_to_directive => g_skip_to_directive
  | R_resync_directive => g_resync_directive
  | R_skip_to_statement => g_skip_to_statement
  | R_resync_statement => g_resync_statement
  | R_skip_to_clause => g_skip_to_clause
  | R_resync_clause => g_resync_clause
  | R__block_start_ => g__block_start_
  | R__block_end_ => g__block_end_
  | R__block_replace_ => g__block_replace_
  | R__block_merge_ => g__block_merge_
  | R__empty_ => g__empty_
  | R__none_ => g__none_
  | R__null_ => g__null_
  | R__cut_ => g__cut_
  | R__line_start_ => g__line_start_
  | R__error_ => g__error_
  end.

Definition all_rules : list rule :=
  [ R___entry_points; R_directive; R__directive; R___directive; R_statement
  ; R__statement; R___statement; R_cypher_statement; R_statement_option; R_cypher_option
  ; R_cypher_version; R_cypher_param; R_cypher_param_name; R_cypher_param_val; R_profile_option
  ; R_explain_option; R_schema_command; R_create_index; R_create_constraint; R_drop_index
  ; R_drop_constraint; R_query; R_query_hints; R_clauses; R__clauses
  ; R_periodic_commit; R_clause; R_loadcsv_clause; R_start_clause; R_start_point
  ; R_node_ids; R_match_clause; R_hint; R_merge_clause; R_merge_action
  ; R_merge_action_set; R_create_clause; R_set_clause; R_set_item; R_delete_clause
  ; R_remove_clause; R_remove_item; R_foreach_clause; R_with_clause; R_additional_with_projections
  ; R_with_projection; R_unwind_clause; R_call_clause; R_proc_projection; R_return_clause
  ; R_additional_return_projections; R_return_projection; R_order_by; R_sort_item; R_skip
  ; R_limit; R_union_clause; R_expression; R__prec_expression; R__expression
  ; R__atom; R_map_projection_element; R_atom; R_property_expression; R_PREFIX_OP
  ; R_POSTFIX_OP; R_INFIX_OP; R_COMPARISON_OP; R_list_comprehension; R_pattern_comprehension
  ; R_case_expression; R_case_alternative; R_case_default; R_filter_expression; R_extract_expression
  ; R_reduce_expression; R_all_predicate; R_any_predicate; R_single_predicate; R_none_predicate
  ; R_function_application; R_collection_literal; R_map_literal; R_identifier; R_string_literal
  ; R_float_literal; R_integer_literal; R_true_literal; R_false_literal; R_null_literal
  ; R_parameter; R_label; R_rel_type; R_rel_type_name; R_prop_name
  ; R_function_name; R_index_name; R_proc_name; R_pattern; R_pattern_part
  ; R_anon_pattern_part; R_shortest_path_pattern; R_pattern_path; R_pattern_expression; R_pattern_expression_path
  ; R_node_pattern; R_relationship_pattern; R_rel_types; R_rel_varlength; R_pattern_properties
  ; R_client_command; R_client_command_name; R_client_command_arg; R_client_arg_string; R_unquoted
  ; R_quoted; R_single_quoted; R_double_quoted; R_escaped_char; R_symbolic_name
  ; R_unescaped_symbolic_name; R_escaped_symbolic_name; R_parameter_name; R_float_string; R_integer_string
  ; R_sym_start; R_sym_part; R_sp; R_hsp; R_line_end
  ; R_comment; R_line_comment; R_block_comment; R_WS; R_HWS
  ; R_EOL; R_EOF; R_CYPHER; R_PROFILE; R_EXPLAIN
  ; R_OR; R_XOR; R_AND; R_NOT; R_EQUAL
  ; R_NEQUAL; R_PLUSEQUAL; R_LT; R_GT; R_LTE
  ; R_GTE; R_PLUS; R_MINUS; R_MULT; R_DIV
  ; R_MOD; R_POW; R_IN; R_REGEX; R_STARTS_WITH
  ; R_ENDS_WITH; R_CONTAINS; R_IS_NULL; R_IS_NOT_NULL; R_DOT
  ; R_DOT_STAR; R_COLON; R_SEMICOLON; R_COMMA; R_STAR
  ; R_PIPE; R_DASH; R_LEFT_PAREN; R_RIGHT_PAREN; R_LEFT_SQ_PAREN
  ; R_RIGHT_SQ_PAREN; R_LEFT_CURLY; R_RIGHT_CURLY; R_ELLIPSIS; R_LEFT_ARROW_HEAD
  ; R_RIGHT_ARROW_HEAD; R_CREATE_CONSTRAINT_ON; R_CREATE_INDEX_ON; R_DROP_CONSTRAINT_ON; R_DROP_INDEX_ON
  ; R_ASSERT; R_IS_UNIQUE; R_DROP; R_USING_PERIODIC_COMMIT; R_LOADCSV
  ; R_START; R_MATCH; R_OPTIONAL_MATCH; R_UNWIND; R_MERGE
  ; R_CREATE; R_CREATE_UNIQUE; R_SET; R_DELETE; R_DETACH_DELETE
  ; R_REMOVE; R_FOREACH; R_WITH; R_CALL; R_RETURN
  ; R_UNION; R_node; R_relationship; R_rel; R_USING_INDEX
  ; R_USING_JOIN_ON; R_USING_SCAN; R_ON_MATCH; R_ON_CREATE; R_WHERE
  ; R_AS; R_DISTINCT; R_YIELD; R_ORDER_BY; R_ASCENDING
  ; R_ASC; R_DESCENDING; R_DESC; R_SKIP; R_LIMIT
  ; R_CASE; R_WHEN; R_THEN; R_ELSE; R_END
  ; R_FILTER; R_EXTRACT; R_REDUCE; R_ALL; R_ANY
  ; R_SINGLE; R_NONE; R_WITH_HEADERS; R_FROM; R_FIELDTERMINATOR
  ; R_TRUE; R_FALSE; R_NULL; R_SHORTESTPATH; R_ALLSHORTESTPATHS
  ; R_WB; R_skip_to_directive; R_resync_directive; R_skip_to_statement; R_resync_statement
  ; R_skip_to_clause; R_resync_clause; R__block_start_; R__block_end_; R__block_replace_
  ; R__block_merge_; R__empty_; R__none_; R__null_; R__cut_
  ; R__line_start_; R__error_ ].

Definition rule_idx (r : rule) : nat :=
  match r with
  | R___entry_points => 0
  | R_directive => 1
  | R__directive => 2
  | R___directive => 3
  | R_statement => 4
  | R__statement => 5
  | R___statement => 6
  | R_cypher_statement => 7
  | R_statement_option => 8
  | R_cypher_option => 9
  | R_cypher_version => 10
  | R_cypher_param => 11
  | R_cypher_param_name => 12
  | R_cypher_param_val => 13
  | R_profile_option => 14
  | R_explain_option => 15
  | R_schema_command => 16
  | R_create_index => 17
  | R_create_constraint => 18
  | R_drop_index => 19
  | R_drop_constraint => 20
  | R_query => 21
  | R_query_hints => 22
  | R_clauses => 23
  | R__clauses => 24
  | R_periodic_commit => 25
  | R_clause => 26
  | R_loadcsv_clause => 27
  | R_start_clause => 28
  | R_start_point => 29
  | R_node_ids => 30
  | R_match_clause => 31
  | R_hint => 32
  | R_merge_clause => 33
  | R_merge_action => 34
  | R_merge_action_set => 35
  | R_create_clause => 36
  | R_set_clause => 37
  | R_set_item => 38
  | R_delete_clause => 39
  | R_remove_clause => 40
  | R_remove_item => 41
  | R_foreach_clause => 42
  | R_with_clause => 43
  | R_additional_with_projections => 44
  | R_with_projection => 45
  | R_unwind_clause => 46
  | R_call_clause => 47
  | R_proc_projection => 48
  | R_return_clause => 49
  | R_additional_return_projections => 50
  | R_return_projection => 51
  | R_order_by => 52
  | R_sort_item => 53
  | R_skip => 54
  | R_limit => 55
  | R_union_clause => 56
  | R_expression => 57
  | R__prec_expression => 58
  | R__expression => 59
  | R__atom => 60
  | R_map_projection_element => 61
  | R_atom => 62
  | R_property_expression => 63
  | R_PREFIX_OP => 64
  | R_POSTFIX_OP => 65
  | R_INFIX_OP => 66
  | R_COMPARISON_OP => 67
  | R_list_comprehension => 68
  | R_pattern_comprehension => 69
  | R_case_expression => 70
  | R_case_alternative => 71
  | R_case_default => 72
  | R_filter_expression => 73
  | R_extract_expression => 74
  | R_reduce_expression => 75
  | R_all_predicate => 76
  | R_any_predicate => 77
  | R_single_predicate => 78
  | R_none_predicate => 79
  | R_function_application => 80
  | R_collection_literal => 81
  | R_map_literal => 82
  | R_identifier => 83
  | R_string_literal => 84
  | R_float_literal => 85
  | R_integer_literal => 86
  | R_true_literal => 87
  | R_false_literal => 88
  | R_null_literal => 89
  | R_parameter => 90
  | R_label => 91
  | R_rel_type => 92
  | R_rel_type_name => 93
  | R_prop_name => 94
  | R_function_name => 95
  | R_index_name => 96
  | R_proc_name => 97
  | R_pattern => 98
  | R_pattern_part => 99
  | R_anon_pattern_part => 100
  | R_shortest_path_pattern => 101
  | R_pattern_path => 102
  | R_pattern_expression => 103
  | R_pattern_expression_path => 104
  | R_node_pattern => 105
  | R_relationship_pattern => 106
  | R_rel_types => 107
  | R_rel_varlength => 108
  | R_pattern_properties => 109
  | R_client_command => 110
  | R_client_command_name => 111
  | R_client_command_arg => 112
  | R_client_arg_string => 113
  | R_unquoted => 114
  | R_quoted => 115
  | R_single_quoted => 116
  | R_double_quoted => 117
  | R_escaped_char => 118
  | R_symbolic_name => 119
  | R_unescaped_symbolic_name => 120
  | R_escaped_symbolic_name => 121
  | R_parameter_name => 122
  | R_float_string => 123
  | R_integer_string => 124
  | R_sym_start => 125
  | R_sym_part => 126
  | R_sp => 127
  | R_hsp => 128
  | R_line_end => 129
  | R_comment => 130
  | R_line_comment => 131
  | R_block_comment => 132
  | R_WS => 133
  | R_HWS => 134
  | R_EOL => 135
  | R_EOF => 136
  | R_CYPHER => 137
  | R_PROFILE => 138
  | R_EXPLAIN => 139
  | R_OR => 140
  | R_XOR => 141
  | R_AND => 142
  | R_NOT => 143
  | R_EQUAL => 144
  | R_NEQUAL => 145
  | R_PLUSEQUAL => 146
  | R_LT => 147
  | R_GT => 148
  | R_LTE => 149
  | R_GTE => 150
  | R_PLUS => 151
  | R_MINUS => 152
  | R_MULT => 153
  | R_DIV => 154
  | R_MOD => 155
  | R_POW => 156
  | R_IN => 157
  | R_REGEX => 158
  | R_STARTS_WITH => 159
  | R_ENDS_WITH => 160
  | R_CONTAINS => 161
  | R_IS_NULL => 162
  | R_IS_NOT_NULL => 163
  | R_DOT => 164
  | R_DOT_STAR => 165
  | R_COLON => 166
  | R_SEMICOLON => 167
  | R_COMMA => 168
  | R_STAR => 169
  | R_PIPE => 170
  | R_DASH => 171
  | R_LEFT_PAREN => 172
  | R_RIGHT_PAREN => 173
  | R_LEFT_SQ_PAREN => 174
  | R_RIGHT_SQ_PAREN => 175
  | R_LEFT_CURLY => 176
  | R_RIGHT_CURLY => 177
  | R_ELLIPSIS => 178
  | R_LEFT_ARROW_HEAD => 179
  | R_RIGHT_ARROW_HEAD => 180
  | R_CREATE_CONSTRAINT_ON => 181
  | R_CREATE_INDEX_ON => 182
  | R_DROP_CONSTRAINT_ON => 183
  | R_DROP_INDEX_ON => 184
  | R_ASSERT => 185
  | R_IS_UNIQUE => 186
  | R_DROP => 187
  | R_USING_PERIODIC_COMMIT => 188
  | R_LOADCSV => 189
  | R_START => 190
  | R_MATCH => 191
  | R_OPTIONAL_MATCH => 192
  | R_UNWIND => 193
  | R_MERGE => 194
  | R_CREATE => 195
  | R_CREATE_UNIQUE => 196
  | R_SET => 197
  | R_DELETE => 198
  | R_DETACH_DELETE => 199
  | R_REMOVE => 200
  | R_FOREACH => 201
  | R_WITH => 202
  | R_CALL => 203
  | R_RETURN => 204
  | R_UNION => 205
  | R_node => 206
  | R_relationship => 207
  | R_rel => 208
  | R_USING_INDEX => 209
  | R_USING_JOIN_ON => 210
  | R_USING_SCAN => 211
  | R_ON_MATCH => 212
  | R_ON_CREATE => 213
  | R_WHERE => 214
  | R_AS => 215
  | R_DISTINCT => 216
  | R_YIELD => 217
  | R_ORDER_BY => 218
  | R_ASCENDING => 219
  | R_ASC => 220
  | R_DESCENDING => 221
  | R_DESC => 222
  | R_SKIP => 223
  | R_LIMIT => 224
  | R_CASE => 225
  | R_WHEN => 226
  | R_THEN => 227
  | R_ELSE => 228
  | R_END => 229
  | R_FILTER => 230
  | R_EXTRACT => 231
  | R_REDUCE => 232
  | R_ALL => 233
  | R_ANY => 234
  | R_SINGLE => 235
  | R_NONE => 236
  | R_WITH_HEADERS => 237
  | R_FROM => 238
  | R_FIELDTERMINATOR => 239
  | R_TRUE => 240
  | R_FALSE => 241
  | R_NULL => 242
  | R_SHORTESTPATH => 243
  | R_ALLSHORTESTPATHS => 244
  | R_WB => 245
  | R_skip_to_directive => 246
  | R_resync_directive => 247
  | R_skip_to_statement => 248
  | R_resync_statement => 249
  | R_skip_to_clause => 250
  | R_resync_clause => 251
  | R__block_start_ => 252
  | R__block_end_ => 253
  | R__block_replace_ => 254
  | R__block_merge_ => 255
  | R__empty_ => 256
  | R__none_ => 257
  | R__null_ => 258
  | R__cut_ => 259
  | R__line_start_ => 260
  | R__error_ => 261
  end.

Lemma all_rules_idx : forall r, nth_error all_rules (rule_idx r) = Some r.
Proof. destruct r; reflexivity. Qed.

Lemma all_rules_complete : forall r, In r all_rules.
Proof. intros r. exact (nth_error_In _ _ (all_rules_idx r)). Qed.
