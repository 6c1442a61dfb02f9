(** * Tables of the newline-safety analysis for the full parser

    Computed by a script; [lines_tables_ok] checks every entry against the body
    of its rule. *)
From Verif Require Import Peg PegWf LineLevels QuickModel CypherSyntax CypherGrammar CypherMatch CypherTables.

(** rules that may succeed without consuming *)
Definition l_nl (r : rule) : bool :=
  match r with
  | R___entry_points | R_directive | R__directive | R___directive
  | R_statement | R__statement | R___statement | R__clauses
  | R_additional_with_projections | R_additional_return_projections | R_sp | R_hsp
  | R_line_end | R_EOF | R_WB | R__block_start_
  | R__block_end_ | R__block_replace_ | R__block_merge_ | R__empty_
  | R__none_ | R__null_ | R__cut_ | R__line_start_
  | R__error_ => true
  | _ => false
  end.

(** rules that run neither _line_start_ nor an ERR block *)
Definition l_pt (r : rule) : bool :=
  match r with
  | R_cypher_param_name | R_escaped_char | R_unescaped_symbolic_name | R_float_string
  | R_integer_string | R_sym_start | R_sym_part | R_HWS
  | R_EOF | R_WB | R__block_start_ | R__block_end_
  | R__block_replace_ | R__block_merge_ | R__empty_ | R__none_
  | R__null_ | R__cut_ | R__error_ => true
  | _ => false
  end.

Definition lev3 (a b c : option (lev * lev)) (h : lev) : option (lev * lev) :=
  match h with L0 => a | L1 => b | L2 => c end.

(** levels after success and after failure, for each level on entry *)
Definition l_T (r : rule) : lev -> option (lev * lev) :=
  match r with
  | R___entry_points | R_directive | R__directive | R___directive
  | R_statement | R__statement | R___statement | R_cypher_statement => lev3 (Some (L0, L1)) (Some (L0, L1)) (Some (L0, L2))
  | R_cypher_option | R_cypher_param => lev3 (Some (L1, L0)) (Some (L1, L1)) (Some (L1, L2))
  | R_cypher_version | R_schema_command | R_query | R_clauses
  | R_start_point | R_pattern_part | R_anon_pattern_part | R_shortest_path_pattern
  | R_node_pattern | R_relationship_pattern | R_client_command | R_client_command_name
  | R_client_command_arg | R_client_arg_string | R_unquoted | R_symbolic_name
  | R_parameter_name | R_float_string | R_OR | R_XOR
  | R_AND | R_NOT | R_EQUAL | R_NEQUAL
  | R_PLUSEQUAL | R_LT | R_GT | R_LTE
  | R_GTE | R_PLUS | R_MINUS | R_MULT
  | R_DIV | R_MOD | R_POW | R_IN
  | R_REGEX | R_STARTS_WITH | R_ENDS_WITH | R_CONTAINS
  | R_IS_NULL | R_IS_NOT_NULL | R_DOT | R_DOT_STAR
  | R_COLON | R_SEMICOLON | R_COMMA | R_STAR
  | R_PIPE | R_DASH | R_LEFT_PAREN | R_RIGHT_PAREN
  | R_LEFT_SQ_PAREN | R_RIGHT_SQ_PAREN | R_LEFT_CURLY | R_RIGHT_CURLY
  | R_ELLIPSIS | R_LEFT_ARROW_HEAD | R_RIGHT_ARROW_HEAD | R_END
  | R_TRUE | R_FALSE | R_NULL | R_resync_directive => lev3 (Some (L0, L0)) (Some (L0, L0)) (Some (L0, L2))
  | R_cypher_param_name | R_profile_option | R_explain_option | R_quoted
  | R_single_quoted | R_double_quoted | R_escaped_char | R_unescaped_symbolic_name
  | R_integer_string | R_sym_start | R_sym_part | R_comment
  | R_line_comment | R_block_comment | R_HWS | R_CYPHER
  | R_PROFILE | R_EXPLAIN | R_resync_statement => lev3 (Some (L0, L0)) (Some (L0, L1)) (Some (L0, L2))
  | R_cypher_param_val => lev3 (Some (L1, L1)) (Some (L1, L1)) (Some (L1, L2))
  | R_create_index | R_create_constraint | R_drop_index | R_drop_constraint
  | R_periodic_commit | R_loadcsv_clause | R_start_clause | R_match_clause
  | R_merge_clause | R_create_clause | R_set_clause | R_delete_clause
  | R_remove_clause | R_foreach_clause | R_with_clause | R_unwind_clause
  | R_call_clause | R_return_clause | R_union_clause | R_EOF
  | R_CREATE_CONSTRAINT_ON | R_CREATE_INDEX_ON | R_DROP_CONSTRAINT_ON | R_DROP_INDEX_ON
  | R_DROP | R_USING_PERIODIC_COMMIT | R_LOADCSV | R_START
  | R_MATCH | R_OPTIONAL_MATCH | R_UNWIND | R_MERGE
  | R_CREATE | R_CREATE_UNIQUE | R_SET | R_DELETE
  | R_DETACH_DELETE | R_REMOVE | R_FOREACH | R_WITH
  | R_CALL | R_RETURN | R_UNION | R_resync_clause => lev3 (Some (L2, L0)) (Some (L2, L1)) (Some (L2, L2))
  | R__clauses => lev3 (None) (None) (Some (L0, L2))
  | R_additional_with_projections | R_additional_return_projections => lev3 (Some (L0, L1)) (Some (L0, L1)) (Some (L2, L2))
  | R_pattern_path | R_pattern_expression_path => lev3 (Some (L1, L0)) (Some (L1, L0)) (Some (L1, L2))
  | R_escaped_symbolic_name | R_sp | R_EOL => lev3 (Some (L2, L2)) (Some (L2, L2)) (Some (L2, L2))
  | R_hsp | R_line_end | R_WS => lev3 (Some (L0, L2)) (Some (L0, L2)) (Some (L0, L2))
  | R_WB | R__none_ => lev3 (Some (L0, L0)) (Some (L1, L1)) (Some (L2, L2))
  | R_skip_to_directive | R_skip_to_statement | R_skip_to_clause => lev3 (None) (Some (L0, L1)) (Some (L0, L2))
  | R__block_start_ | R__block_end_ | R__block_replace_ | R__block_merge_
  | R__empty_ | R__cut_ | R__error_ => lev3 (Some (L0, L2)) (Some (L1, L2)) (Some (L2, L2))
  | R__null_ => lev3 (Some (L0, L1)) (Some (L1, L1)) (Some (L2, L2))
  | R__line_start_ => lev3 (None) (None) (None)
  | _ => lev3 (Some (L2, L0)) (Some (L2, L0)) (Some (L2, L2))
  end.

Definition l_eol (r : rule) : bool := match r with R_EOL => true | _ => false end.
Definition l_bq (r : rule) : bool := match r with R_escaped_symbolic_name => true | _ => false end.
Definition l_isline (q : pred) : bool := match q with QLineStart => true | _ => false end.
Definition l_iserr (q : pred) : bool := match q with QErr _ => true | _ => false end.

Lemma l_nl_ok : forall r, nullable l_nl (CG r) = true -> l_nl r = true.
Proof.
  intros r. assert (H : forallb (fun r => implb (nullable l_nl (CG r)) (l_nl r)) all_rules = true)
    by (vm_compute; reflexivity).
  rewrite forallb_forall in H. specialize (H r (all_rules_complete r)).
  destruct (nullable l_nl (CG r)); [intros _; exact H|discriminate].
Qed.

Lemma lines_tables_ok : forall r, l_eol r = false -> l_bq r = false ->
  nle_rule l_nl l_T l_pt l_eol l_bq l_isline l_iserr c_sq CG r = true.
Proof.
  intros r H1 H2.
  assert (H : forallb (fun r => l_eol r || l_bq r ||
    nle_rule l_nl l_T l_pt l_eol l_bq l_isline l_iserr c_sq CG r) all_rules = true)
    by (vm_compute; reflexivity).
  rewrite forallb_forall in H. specialize (H r (all_rules_complete r)).
  rewrite H1, H2 in H. exact H.
Qed.
