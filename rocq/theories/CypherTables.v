(** * Tables for the grammar analyses of PegMode.v

    Computed by a script and checked below by evaluation: an entry that is not
    justified by the body of its rule makes [tables_ok] fail. *)
From Verif Require Import Peg PegWf PegMode QuickModel CypherSyntax CypherGrammar CypherMatch.

(** code that never answers "no" *)
Definition c_sq (q : pred) : bool :=
  match q with QPrecChk | QConst false => false | _ => true end.

(** rules that never fail *)
Definition c_su (m : mode) (r : rule) : bool :=
  match m with
  | NE =>
      match r with
      | R___entry_points | R_directive | R__directive | R_statement
      | R__statement | R__clauses | R_additional_with_projections | R_additional_return_projections
      | R_sp | R_hsp | R_skip_to_directive | R_skip_to_statement
      | R_skip_to_clause | R__block_start_ | R__block_end_ | R__block_replace_
      | R__block_merge_ | R__empty_ | R__null_ | R__cut_
      | R__line_start_ | R__error_ => true
      | _ => false
      end
  | AE =>
      match r with
      | R___entry_points | R_directive | R__directive | R___directive
      | R_statement | R__statement | R___statement | R__clauses
      | R_additional_with_projections | R_additional_return_projections | R_sp | R_hsp
      | R_line_end | R_EOF | R_WB | R__block_start_
      | R__block_end_ | R__block_replace_ | R__block_merge_ | R__empty_
      | R__null_ | R__cut_ | R__line_start_ | R__error_ => true
      | _ => false
      end
  end.

(** rules that may succeed without consuming *)
Definition c_nl (m : mode) (r : rule) : bool :=
  match m with
  | NE =>
      match r with
      | R_additional_with_projections | R_additional_return_projections | R_sp | R_hsp
      | R_WB | R__block_start_ | R__block_end_ | R__block_replace_
      | R__block_merge_ | R__empty_ | R__none_ | R__null_
      | R__cut_ | R__line_start_ | R__error_ => true
      | _ => false
      end
  | AE =>
      match r with
      | R___entry_points | R_directive | R__directive | R___directive
      | R_statement | R__statement | R___statement | R__clauses
      | R_additional_with_projections | R_additional_return_projections | R_sp | R_hsp
      | R_line_end | R_EOF | R_WB | R__block_start_
      | R__block_end_ | R__block_replace_ | R__block_merge_ | R__empty_
      | R__none_ | R__null_ | R__cut_ | R__line_start_
      | R__error_ => true
      | _ => false
      end
  end.

(** rank: above that of every rule callable at the same position *)
Definition c_rk (m : mode) (r : rule) : nat :=
  match m with
  | NE =>
      match r with
      | R_cypher_option | R_cypher_param | R_profile_option | R_explain_option
      | R_create_index | R_create_constraint | R_drop_index | R_drop_constraint
      | R_periodic_commit | R_loadcsv_clause | R_start_clause | R_match_clause
      | R_hint | R_merge_clause | R_merge_action | R_merge_action_set
      | R_create_clause | R_set_clause | R_delete_clause | R_remove_clause
      | R_foreach_clause | R_with_clause | R_additional_with_projections | R_unwind_clause
      | R_call_clause | R_return_clause | R_additional_return_projections | R_order_by
      | R_skip | R_limit | R_union_clause | R_PREFIX_OP
      | R_POSTFIX_OP | R_INFIX_OP | R_COMPARISON_OP | R_list_comprehension
      | R_pattern_comprehension | R_case_expression | R_case_alternative | R_case_default
      | R_filter_expression | R_extract_expression | R_reduce_expression | R_all_predicate
      | R_any_predicate | R_single_predicate | R_none_predicate | R_collection_literal
      | R_map_literal | R_float_literal | R_integer_literal | R_true_literal
      | R_false_literal | R_null_literal | R_parameter | R_label
      | R_rel_type | R_shortest_path_pattern | R_node_pattern | R_relationship_pattern
      | R_rel_varlength | R_client_command | R_quoted | R_unescaped_symbolic_name
      | R_hsp | R_line_end | R_comment | R_WS
      | R_WITH_HEADERS | R_WB | R_resync_clause | R__null_
      | R__cut_ => 1
      | R_statement_option | R_cypher_param_val | R_schema_command | R_query_hints
      | R_clause | R_node_ids | R_string_literal | R_pattern_path
      | R_pattern_expression_path | R_rel_types | R_pattern_properties | R_unquoted
      | R_symbolic_name | R_sp | R_resync_statement => 2
      | R_clauses | R__clauses | R_identifier | R_rel_type_name
      | R_prop_name | R_function_name | R_index_name | R_proc_name
      | R_anon_pattern_part | R_pattern_expression | R_client_arg_string | R_parameter_name
      | R_resync_directive => 3
      | R_query | R_start_point | R_proc_projection | R_map_projection_element
      | R_function_application | R_pattern_part | R_client_command_arg => 4
      | R_cypher_statement | R_atom | R_pattern | R_client_command_name => 5
      | R___directive | R___statement | R__atom | R_property_expression => 6
      | R__directive | R__statement | R_set_item | R_remove_item
      | R__expression => 7
      | R_directive | R_statement | R_expression | R__prec_expression => 8
      | R___entry_points | R_with_projection | R_return_projection | R_sort_item => 9
      | _ => 0
      end
  | AE =>
      match r with
      | R___directive | R___statement | R_cypher_option | R_cypher_param
      | R_profile_option | R_explain_option | R_create_index | R_create_constraint
      | R_drop_index | R_drop_constraint | R__clauses | R_periodic_commit
      | R_loadcsv_clause | R_start_clause | R_match_clause | R_hint
      | R_merge_clause | R_merge_action | R_merge_action_set | R_create_clause
      | R_set_clause | R_delete_clause | R_remove_clause | R_foreach_clause
      | R_with_clause | R_additional_with_projections | R_unwind_clause | R_call_clause
      | R_return_clause | R_additional_return_projections | R_order_by | R_skip
      | R_limit | R_union_clause | R_PREFIX_OP | R_POSTFIX_OP
      | R_INFIX_OP | R_COMPARISON_OP | R_list_comprehension | R_pattern_comprehension
      | R_case_expression | R_case_alternative | R_case_default | R_filter_expression
      | R_extract_expression | R_reduce_expression | R_all_predicate | R_any_predicate
      | R_single_predicate | R_none_predicate | R_collection_literal | R_map_literal
      | R_float_literal | R_integer_literal | R_true_literal | R_false_literal
      | R_null_literal | R_parameter | R_label | R_rel_type
      | R_shortest_path_pattern | R_node_pattern | R_relationship_pattern | R_rel_varlength
      | R_client_command | R_quoted | R_unescaped_symbolic_name | R_hsp
      | R_line_end | R_comment | R_WS | R_WITH_HEADERS
      | R_WB | R_resync_clause | R__null_ | R__cut_ => 1
      | R__directive | R__statement | R_statement_option | R_cypher_param_val
      | R_schema_command | R_query_hints | R_clause | R_node_ids
      | R_string_literal | R_pattern_path | R_pattern_expression_path | R_rel_types
      | R_pattern_properties | R_unquoted | R_symbolic_name | R_sp
      | R_resync_statement => 2
      | R_directive | R_statement | R_clauses | R_identifier
      | R_rel_type_name | R_prop_name | R_function_name | R_index_name
      | R_proc_name | R_anon_pattern_part | R_pattern_expression | R_client_arg_string
      | R_parameter_name | R_resync_directive => 3
      | R___entry_points | R_query | R_start_point | R_proc_projection
      | R_map_projection_element | R_function_application | R_pattern_part | R_client_command_arg => 4
      | R_cypher_statement | R_atom | R_pattern | R_client_command_name => 5
      | R__atom | R_property_expression => 6
      | R_set_item | R_remove_item | R__expression => 7
      | R_expression | R__prec_expression => 8
      | R_with_projection | R_return_projection | R_sort_item => 9
      | _ => 0
      end
  end.

(** rules that never consume input *)
Definition c_st (r : rule) : bool :=
  match r with
  | R_EOF
  | R_WB
  | R__block_start_
  | R__block_end_
  | R__block_replace_
  | R__block_merge_
  | R__empty_
  | R__none_
  | R__null_
  | R__cut_
  | R__line_start_
  | R__error_ => true
  | _ => false
  end.

Definition c_kmax : nat := 10.
Definition c_m : nat := 200.

Lemma tables_ok : forall r, wfm_rule c_su c_nl c_sq c_st c_rk c_kmax CG c_m r = true.
Proof.
  intros r. assert (H : forallb (wfm_rule c_su c_nl c_sq c_st c_rk c_kmax CG c_m) all_rules = true)
    by (vm_compute; reflexivity).
  rewrite forallb_forall in H. apply H. apply all_rules_complete.
Qed.

Lemma c_sq_ok : forall col off q p c u u' l, c_sq q = true ->
  cprun col off q p c u <> Some (false, u', l).
Proof.
  intros col off q p c u u' l H. destruct q; cbn [cprun c_sq] in *; try discriminate.
  - destruct (c_op u); discriminate.
  - destruct b; [congruence|discriminate].
  - destruct (do_err off p c label u); discriminate.
Qed.
