(** * Detail strings of AST nodes (the [.detailstr] of each virtual table)

    lib/src/ast_*.c detailstr, lib/src/ast.c:921-985 (cypher_astnode_detailstr,
    snprint_sequence).  The table [detail_prog] is generated from the C
    functions, statement by statement. *)
From Coq Require Import List Bool Arith Ascii String.
From Verif Require Import Peg OperModel CypherSyntax AstTypes AstModel.
Import ListNotations.

(** ** Text *)

Definition digit (d : nat) : ascii := ascii_of_nat (48 + d).

(** printf's %u and %zu *)
Fixpoint digits (f n : nat) : bytes :=
  match f with
  | 0 => []
  | S f => (if n <? 10 then [] else digits f (n / 10)) ++ [digit (n mod 10)]
  end.
Definition dec (n : nat) : bytes := digits (S n) n.

Definition NUL : ascii := "000"%char.

(** ** Writing into a buffer

    The buffer is the list of its bytes; [None] is a write outside of it.  The
    functions take [size], which their callers promise to be its length. *)

Fixpoint put (buf : bytes) (i : nat) (c : ascii) : option bytes :=
  match buf, i with
  | [], _ => None
  | _ :: buf, 0 => Some (c :: buf)
  | x :: buf, S i => option_map (cons x) (put buf i c)
  end.

Fixpoint put_all (buf : bytes) (i : nat) (s : bytes) : option bytes :=
  match s with
  | [] => Some buf
  | c :: s => match put buf i c with Some buf => put_all buf (S i) s | None => None end
  end.

(** What is stored after the character *)
Inductive ztail : Set :=
| ZNone      (* nothing *)
| ZNext      (* str[n+1] = NUL *)
| ZEnd.      (* str[size-1] = NUL *)

(** One writing statement; [n] is the local variable counting what has been
    produced. *)
Inductive wop : Set :=
| WPrintf (s : bytes)
    (* r = snprintf(str+n, (n < size)? size-n : 0, ...); n += r; with [s] the
       formatted text *)
| WChar (margin : nat) (c : ascii) (z : ztail)
    (* if (n+margin < size) { str[n] = c; <z> } n++; *)
| WCopy (s : bytes) (adv : nat) (always : bool)
    (* if (n < size) { strncpy(str+n, s, size-n); } str[size-1] = NUL; n += adv;
       the NUL is stored when n < size, or, with [always], when size > 0 *)
| WTerm.
    (* if (size > 0) { str[0] = NUL; } *)

(** strncpy pads with NUL bytes *)
Definition strncpy_bytes (s : bytes) (room : nat) : bytes :=
  firstn room (s ++ repeat NUL room).

Definition wexec (size : nat) (o : wop) (st : bytes * nat) : option (bytes * nat) :=
  let (buf, n) := st in
  match o with
  | WPrintf s =>
      let room := if n <? size then size - n else 0 in
      let w := match room with 0 => [] | S m => firstn m s ++ [NUL] end in
      option_map (fun b => (b, n + List.length s)) (put_all buf n w)
  | WChar margin c z =>
      option_map (fun b => (b, S n))
        (if n + margin <? size then
           match put buf n c with
           | None => None
           | Some b =>
               match z with
               | ZNone => Some b
               | ZNext => put b (S n) NUL
               | ZEnd => put b (size - 1) NUL
               end
           end
         else Some buf)
  | WCopy s adv always =>
      option_map (fun b => (b, n + adv))
        (if n <? size then
           match put_all buf n (strncpy_bytes s (size - n)) with
           | None => None
           | Some b => put b (size - 1) NUL
           end
         else if always && (0 <? size) then put buf (size - 1) NUL else Some buf)
  | WTerm => option_map (fun b => (b, n)) (if 0 <? size then put buf 0 NUL else Some buf)
  end.

Fixpoint wrun (size : nat) (ops : list wop) (st : bytes * nat) : option (bytes * nat) :=
  match ops with
  | [] => Some st
  | o :: ops => match wexec size o st with Some st => wrun size ops st | None => None end
  end.

(** ** The detailstr functions *)

Inductive dcond : Set :=
| CFlag (k : nat)             (* node->f, a bool *)
| CSet (k : nat)              (* node->f != NULL *)
| CSome (k : nat)             (* node->nf > 0 *)
| CDir (k : nat) (d : dir)    (* node->direction == d *)
| CFirst | CNotFirst          (* i == 0, i > 0 *)
| CNotLast                    (* ++i < count *)
| CEven | COdd                (* i % 2 == 0 *)
| CAnd (a b : dcond)
| COr (a b : dcond).

(** Arguments of snprintf *)
Inductive piece : Set :=
| PLit (s : bytes)            (* text of the format *)
| POrd (k : nat)              (* node->f->ordinal *)
| PElt (k j : nat)            (* node->f[i*stride+j]->ordinal *)
| PLast (k : nat)             (* node->args[node->length]->ordinal *)
| PStrF (k : nat)             (* node->p, a NUL-terminated string *)
| POper (k : nat)             (* node->op->str *)
| PEltOper (k : nat)          (* node->ops[i]->str *)
| PIf (c : dcond) (a b : bytes).

Inductive dstmt : Set :=
| SPrintf (ps : list piece)
| SChar (margin : nat) (c : ascii) (z : ztail)
| SCopy (s : bytes) (adv : nat) (always : bool)
| STerm
| SSequence (k : nat)                              (* snprint_sequence(.., node->f, node->nf) *)
| SWhen (c : dcond) (b : list dstmt)
| SEach (k stride : nat) (b : list dstmt)          (* for i < node->nf (elements / stride) *)
| SEachOp (k stride : nat) (b : list dstmt).       (* for i < node->length, over the operators *)

(** Each statement list of a detailstr function.  Types without a constructor
    have no instances and are mapped to []. *)
Definition detail_prog (t : asttype) : list dstmt :=
  match t with
  | T_STATEMENT =>   (* ast_statement.c:136-178 *)
      [SWhen (CSome 0) [SCopy (B "options=") 8 false; SSequence 0; SCopy (B ", ") 2 false];
       SPrintf [PLit (B "body=@"); POrd 1]]
  | T_STATEMENT_OPTION => []
  | T_CYPHER_OPTION =>   (* ast_cypher_option.c:148-186 *)
      [SWhen (CSet 0) [SPrintf [PLit (B "version=@"); POrd 0]];
       SWhen (CSome 1) [SPrintf [PIf (CSet 0) (B ", ") (B ""); PLit (B "params=")]; SSequence 1]]
  | T_CYPHER_OPTION_PARAM =>   (* ast_cypher_option_param.c:104-111 *)
      [SPrintf [PLit (B "@"); POrd 0; PLit (B " = @"); POrd 1]]
  | T_EXPLAIN_OPTION =>   (* ast_explain_option.c:72-76 *)
      []
  | T_PROFILE_OPTION =>   (* ast_profile_option.c:72-76 *)
      []
  | T_SCHEMA_COMMAND => []
  | T_CREATE_NODE_PROPS_INDEX =>   (* ast_create_node_props_index.c:147-190 *)
      [SPrintf [PLit (B "ON=:@"); POrd 0; PLit (B "(")];
       SEach 1 1 [SPrintf [PLit (B "@"); PElt 1 0]; SWhen CNotLast [SChar 0 ","%char ZNone; SChar 0 " "%char ZNone]];
       SChar 0 ")"%char ZNone]
  | T_DROP_NODE_PROPS_INDEX =>   (* ast_drop_node_props_index.c:146-188 *)
      [SPrintf [PLit (B "ON=:@"); POrd 0; PLit (B "(")];
       SEach 1 1 [SPrintf [PLit (B "@"); PElt 1 0]; SWhen CNotLast [SChar 0 ","%char ZNone; SChar 0 " "%char ZNone]];
       SChar 0 ")"%char ZNone]
  | T_CREATE_NODE_PROP_CONSTRAINT =>   (* ast_create_node_prop_constraint.c:130-138 *)
      [SPrintf [PLit (B "ON=(@"); POrd 0; PLit (B ":@"); POrd 1; PLit (B "), expression=@"); POrd 2; PIf (CFlag 3) (B ", IS UNIQUE") (B "")]]
  | T_DROP_NODE_PROP_CONSTRAINT =>   (* ast_drop_node_prop_constraint.c:130-138 *)
      [SPrintf [PLit (B "ON=(@"); POrd 0; PLit (B ":@"); POrd 1; PLit (B "), expression=@"); POrd 2; PIf (CFlag 3) (B ", IS UNIQUE") (B "")]]
  | T_CREATE_REL_PROP_CONSTRAINT =>   (* ast_create_rel_prop_constraint.c:130-138 *)
      [SPrintf [PLit (B "ON=(@"); POrd 0; PLit (B ":@"); POrd 1; PLit (B "), expression=@"); POrd 2; PIf (CFlag 3) (B ", IS UNIQUE") (B "")]]
  | T_DROP_REL_PROP_CONSTRAINT =>   (* ast_drop_rel_prop_constraint.c:130-138 *)
      [SPrintf [PLit (B "ON=(@"); POrd 0; PLit (B ":@"); POrd 1; PLit (B "), expression=@"); POrd 2; PIf (CFlag 3) (B ", IS UNIQUE") (B "")]]
  | T_QUERY =>   (* ast_query.c:177-196 *)
      [SCopy (B "clauses=") 8 false;
       SSequence 1]
  | T_QUERY_OPTION => []
  | T_USING_PERIODIC_COMMIT =>   (* ast_using_periodic_commit.c:96-106 *)
      [SWhen (CSet 0) [SPrintf [PLit (B "limit=@"); POrd 0]]]
  | T_QUERY_CLAUSE => []
  | T_LOAD_CSV =>   (* ast_load_csv.c:130-156 *)
      [SPrintf [PIf (CFlag 0) (B "WITH HEADERS, ") (B ""); PLit (B "url=@"); POrd 1; PLit (B ", identifier=@"); POrd 2];
       SWhen (CSet 3) [SPrintf [PLit (B ", field_terminator=@"); POrd 3]]]
  | T_START =>   (* ast_start.c:143-176 *)
      [SCopy (B "points=") 7 false;
       SSequence 0;
       SWhen (CSet 1) [SPrintf [PLit (B ", WHERE=@"); POrd 1]]]
  | T_START_POINT => []
  | T_NODE_INDEX_LOOKUP =>   (* ast_node_index_lookup.c:139-147 *)
      [SPrintf [PLit (B "@"); POrd 0; PLit (B " = node:@"); POrd 1; PLit (B "(@"); POrd 2; PLit (B " = @"); POrd 3; PLit (B ")")]]
  | T_NODE_INDEX_QUERY =>   (* ast_node_index_query.c:124-132 *)
      [SPrintf [PLit (B "@"); POrd 0; PLit (B " = node:@"); POrd 1; PLit (B "(@"); POrd 2; PLit (B ")")]]
  | T_NODE_ID_LOOKUP =>   (* ast_node_id_lookup.c:143-175 *)
      [SPrintf [PLit (B "@"); POrd 0; PLit (B " = node(")];
       SEach 1 1 [SPrintf [PIf (CNotFirst) (B ", ") (B ""); PLit (B "@"); PElt 1 0]];
       SChar 1 ")"%char ZEnd]
  | T_ALL_NODES_SCAN =>   (* ast_all_nodes_scan.c:93-99 *)
      [SPrintf [PLit (B "identifier=@"); POrd 0]]
  | T_REL_INDEX_LOOKUP =>   (* ast_rel_index_lookup.c:139-147 *)
      [SPrintf [PLit (B "@"); POrd 0; PLit (B " = rel:@"); POrd 1; PLit (B "(@"); POrd 2; PLit (B " = @"); POrd 3; PLit (B ")")]]
  | T_REL_INDEX_QUERY =>   (* ast_rel_index_query.c:124-132 *)
      [SPrintf [PLit (B "@"); POrd 0; PLit (B " = rel:@"); POrd 1; PLit (B "(@"); POrd 2; PLit (B ")")]]
  | T_REL_ID_LOOKUP =>   (* ast_rel_id_lookup.c:143-175 *)
      [SPrintf [PLit (B "@"); POrd 0; PLit (B " = rel(")];
       SEach 1 1 [SPrintf [PIf (CNotFirst) (B ", ") (B ""); PLit (B "@"); PElt 1 0]];
       SChar 1 ")"%char ZEnd]
  | T_ALL_RELS_SCAN =>   (* ast_all_rels_scan.c:93-99 *)
      [SPrintf [PLit (B "identifier=@"); POrd 0]]
  | T_MATCH =>   (* ast_match.c:167-213 *)
      [SPrintf [PIf (CFlag 0) (B "OPTIONAL, ") (B ""); PLit (B "pattern=@"); POrd 1];
       SWhen (CSome 2) [SCopy (B ", hints=") 8 true; SSequence 2];
       SWhen (CSet 3) [SPrintf [PLit (B ", where=@"); POrd 3]]]
  | T_MATCH_HINT => []
  | T_USING_INDEX =>   (* ast_using_index.c:123-129 *)
      [SPrintf [PLit (B "@"); POrd 0; PLit (B ":@"); POrd 1; PLit (B "(@"); POrd 2; PLit (B ")")]]
  | T_USING_JOIN =>   (* ast_using_join.c:132-151 *)
      [SCopy (B "on=") 3 false;
       SSequence 0]
  | T_USING_SCAN =>   (* ast_using_scan.c:108-114 *)
      [SPrintf [PLit (B "@"); POrd 0; PLit (B ":@"); POrd 1]]
  | T_MERGE =>   (* ast_merge.c:140-174 *)
      [SPrintf [PLit (B "path=@"); POrd 0];
       SWhen (CSome 1) [SCopy (B ", actions=") 8 true; SSequence 1]]
  | T_MERGE_ACTION => []
  | T_ON_MATCH =>   (* ast_on_match.c:127-147 *)
      [SCopy (B "items=") 6 false;
       SSequence 0]
  | T_ON_CREATE =>   (* ast_on_create.c:127-147 *)
      [SCopy (B "items=") 6 false;
       SSequence 0]
  | T_CREATE =>   (* ast_create.c:101-107 *)
      [SPrintf [PIf (CFlag 0) (B "UNIQUE, ") (B ""); PLit (B "pattern=@"); POrd 1]]
  | T_SET =>   (* ast_set.c:126-146 *)
      [SCopy (B "items=") 6 false;
       SSequence 0]
  | T_SET_ITEM => []
  | T_SET_PROPERTY =>   (* ast_set_property.c:108-116 *)
      [SPrintf [PLit (B "@"); POrd 0; PLit (B " = @"); POrd 1]]
  | T_SET_ALL_PROPERTIES =>   (* ast_set_all_properties.c:109-117 *)
      [SPrintf [PLit (B "@"); POrd 0; PLit (B " = @"); POrd 1]]
  | T_MERGE_PROPERTIES =>   (* ast_merge_properties.c:108-116 *)
      [SPrintf [PLit (B "@"); POrd 0; PLit (B " += @"); POrd 1]]
  | T_SET_LABELS =>   (* ast_set_labels.c:141-165 *)
      [SPrintf [PLit (B "@"); POrd 0];
       SEach 1 1 [SPrintf [PLit (B ":@"); PElt 1 0]]]
  | T_DELETE =>   (* ast_delete.c:143-163 *)
      [SPrintf [PIf (CFlag 0) (B "DETACH, ") (B ""); PLit (B "expressions=")];
       SSequence 1]
  | T_REMOVE =>   (* ast_remove.c:126-146 *)
      [SCopy (B "items=") 6 false;
       SSequence 0]
  | T_REMOVE_ITEM => []
  | T_REMOVE_LABELS =>   (* ast_remove_labels.c:145-170 *)
      [SPrintf [PLit (B "@"); POrd 0];
       SEach 1 1 [SPrintf [PLit (B ":@"); PElt 1 0]]]
  | T_REMOVE_PROPERTY =>   (* ast_remove_property.c:94-100 *)
      [SPrintf [PLit (B "prop=@"); POrd 0]]
  | T_FOREACH =>   (* ast_foreach.c:159-192 *)
      [SPrintf [PLit (B "[@"); POrd 0; PLit (B " IN @"); POrd 1; PLit (B " | ")];
       SEach 2 1 [SPrintf [PIf (CNotFirst) (B ", ") (B ""); PLit (B "@"); PElt 2 0]];
       SChar 1 "]"%char ZNext]
  | T_WITH =>   (* ast_with.c:219-288 *)
      [SPrintf [PIf (CFlag 0) (B "DISTINCT") (B ""); PIf (CAnd (CFlag 0) (CFlag 1)) (B ", ") (B ""); PIf (CFlag 1) (B "*") (B ""); PIf (COr (CFlag 0) (CFlag 1)) (B ", ") (B ""); PLit (B "projections=")];
       SSequence 2;
       SWhen (CSet 3) [SPrintf [PLit (B ", ORDER BY=@"); POrd 3]];
       SWhen (CSet 4) [SPrintf [PLit (B ", SKIP=@"); POrd 4]];
       SWhen (CSet 5) [SPrintf [PLit (B ", LIMIT=@"); POrd 5]];
       SWhen (CSet 6) [SPrintf [PLit (B ", WHERE=@"); POrd 6]]]
  | T_UNWIND =>   (* ast_unwind.c:107-114 *)
      [SPrintf [PLit (B "expression=@"); POrd 0; PLit (B ", alias=@"); POrd 1]]
  | T_CALL =>   (* ast_call.c:213-274 *)
      [SPrintf [PLit (B "name=@"); POrd 0];
       SWhen (CSome 1) [SCopy (B ", args=") 7 false; SSequence 1];
       SWhen (CSome 2) [SCopy (B ", YIELD=") 8 false; SSequence 2];
       SWhen (CSet 3) [SPrintf [PLit (B ", WHERE=@"); POrd 3]]]
  | T_RETURN =>   (* ast_return.c:204-262 *)
      [SPrintf [PIf (CFlag 0) (B "DISTINCT") (B ""); PIf (CAnd (CFlag 0) (CFlag 1)) (B ", ") (B ""); PIf (CFlag 1) (B "*") (B ""); PIf (COr (CFlag 0) (CFlag 1)) (B ", ") (B ""); PLit (B "projections=")];
       SSequence 2;
       SWhen (CSet 3) [SPrintf [PLit (B ", ORDER BY=@"); POrd 3]];
       SWhen (CSet 4) [SPrintf [PLit (B ", SKIP=@"); POrd 4]];
       SWhen (CSet 5) [SPrintf [PLit (B ", LIMIT=@"); POrd 5]]]
  | T_PROJECTION =>   (* ast_projection.c:101-124 *)
      [SPrintf [PLit (B "expression=@"); POrd 0];
       SWhen (CSet 1) [SPrintf [PLit (B ", alias=@"); POrd 1]]]
  | T_ORDER_BY =>   (* ast_order_by.c:122-142 *)
      [SCopy (B "items=") 6 false;
       SSequence 0]
  | T_SORT_ITEM =>   (* ast_sort_item.c:96-102 *)
      [SPrintf [PLit (B "expression=@"); POrd 0; PLit (B ", "); PIf (CFlag 1) (B "ASCENDING") (B "DESCENDING")]]
  | T_UNION =>   (* ast_union.c:86-101 *)
      [SWhen (CFlag 0) [SCopy (B "ALL") 3 false]]
  | T_EXPRESSION => []
  | T_UNARY_OPERATOR =>   (* ast_unary_operator.c:107-113 *)
      [SPrintf [POper 0; PLit (B " @"); POrd 1]]
  | T_BINARY_OPERATOR =>   (* ast_binary_operator.c:122-129 *)
      [SPrintf [PLit (B "@"); POrd 1; PLit (B " "); POper 0; PLit (B " @"); POrd 2]]
  | T_COMPARISON =>   (* ast_comparison.c:160-186 *)
      [SEachOp 0 1 [SPrintf [PLit (B "@"); PElt 1 0; PLit (B " "); PEltOper 0; PLit (B " ")]];
       SPrintf [PLit (B "@"); PLast 1]]
  | T_APPLY_OPERATOR =>   (* ast_apply_operator.c:160-204 *)
      [SPrintf [PLit (B "@"); POrd 0; PLit (B "("); PIf (CFlag 1) (B "DISTINCT ") (B "")];
       SEach 2 1 [SPrintf [PLit (B "@"); PElt 2 0]; SWhen CNotLast [SChar 0 ","%char ZNone; SChar 0 " "%char ZNone]];
       SChar 1 ")"%char ZNone]
  | T_APPLY_ALL_OPERATOR =>   (* ast_apply_all_operator.c:114-122 *)
      [SPrintf [PLit (B "@"); POrd 0; PLit (B "("); PIf (CFlag 1) (B "DISTINCT ") (B ""); PLit (B "*)")]]
  | T_PROPERTY_OPERATOR =>   (* ast_property_operator.c:110-117 *)
      [SPrintf [PLit (B "@"); POrd 0; PLit (B ".@"); POrd 1]]
  | T_SUBSCRIPT_OPERATOR =>   (* ast_subscript_operator.c:110-117 *)
      [SPrintf [PLit (B "@"); POrd 0; PLit (B "[@"); POrd 1; PLit (B "]")]]
  | T_SLICE_OPERATOR =>   (* ast_slice_operator.c:127-185 *)
      [SPrintf [PLit (B "@"); POrd 0; PLit (B "[")];
       SWhen (CSet 1) [SPrintf [PLit (B "@"); POrd 1]];
       SChar 1 "."%char ZNext;
       SChar 1 "."%char ZNext;
       SWhen (CSet 2) [SPrintf [PLit (B "@"); POrd 2]];
       SChar 1 "]"%char ZNext]
  | T_LABELS_OPERATOR =>   (* ast_labels_operator.c:146-171 *)
      [SPrintf [PLit (B "@"); POrd 0];
       SEach 1 1 [SPrintf [PLit (B ":@"); PElt 1 0]]]
  | T_LIST_COMPREHENSION =>   (* ast_list_comprehension.c:220-266 *)
      [SPrintf [PLit (B "[@"); POrd 0; PLit (B " IN @"); POrd 1];
       SWhen (CSet 2) [SPrintf [PLit (B " WHERE @"); POrd 2]];
       SWhen (CSet 3) [SPrintf [PLit (B " | @"); POrd 3]];
       SChar 0 "]"%char ZNone]
  | T_PATTERN_COMPREHENSION =>   (* ast_pattern_comprehension.c:144-195 *)
      [SChar 0 "["%char ZNone;
       SWhen (CSet 0) [SPrintf [PLit (B "@"); POrd 0; PLit (B " = ")]];
       SPrintf [PLit (B "@"); POrd 1; PLit (B " ")];
       SWhen (CSet 2) [SPrintf [PLit (B "WHERE @"); POrd 2; PLit (B " ")]];
       SPrintf [PLit (B "| @"); POrd 3; PLit (B "]")]]
  | T_CASE =>   (* ast_case.c:178-237 *)
      [SWhen (CSet 0) [SPrintf [PLit (B "expression=@"); POrd 0; PLit (B ", ")]];
       SPrintf [PLit (B "alternatives=")];
       SChar 0 "["%char ZNone;
       SEach 1 2 [SPrintf [PIf (CNotFirst) (B ", ") (B ""); PLit (B "(@"); PElt 1 0; PLit (B ":@"); PElt 1 1; PLit (B ")")]];
       SChar 0 "]"%char ZNone;
       SWhen (CSet 2) [SPrintf [PLit (B ", default=@"); POrd 2]]]
  | T_FILTER =>   (* ast_filter.c:141-177 *)
      [SPrintf [PLit (B "[@"); POrd 0; PLit (B " IN @"); POrd 1];
       SWhen (CSet 2) [SPrintf [PLit (B " WHERE @"); POrd 2]];
       SChar 1 "]"%char ZNext]
  | T_EXTRACT =>   (* ast_extract.c:141-177 *)
      [SPrintf [PLit (B "[@"); POrd 0; PLit (B " IN @"); POrd 1];
       SWhen (CSet 2) [SPrintf [PLit (B " | @"); POrd 2]];
       SChar 1 "]"%char ZNext]
  | T_REDUCE =>   (* ast_reduce.c:147-182 *)
      [SPrintf [PLit (B "[@"); POrd 0; PLit (B "=@"); POrd 1; PLit (B ", @"); POrd 2; PLit (B " IN @"); POrd 3];
       SWhen (CSet 4) [SPrintf [PLit (B " | @"); POrd 4]];
       SChar 1 "]"%char ZNext]
  | T_ALL =>   (* ast_all.c:138-174 *)
      [SPrintf [PLit (B "[@"); POrd 0; PLit (B " IN @"); POrd 1];
       SWhen (CSet 2) [SPrintf [PLit (B " WHERE @"); POrd 2]];
       SChar 1 "]"%char ZNext]
  | T_ANY =>   (* ast_any.c:138-174 *)
      [SPrintf [PLit (B "[@"); POrd 0; PLit (B " IN @"); POrd 1];
       SWhen (CSet 2) [SPrintf [PLit (B " WHERE @"); POrd 2]];
       SChar 1 "]"%char ZNext]
  | T_SINGLE =>   (* ast_single.c:141-177 *)
      [SPrintf [PLit (B "[@"); POrd 0; PLit (B " IN @"); POrd 1];
       SWhen (CSet 2) [SPrintf [PLit (B " WHERE @"); POrd 2]];
       SChar 1 "]"%char ZNext]
  | T_NONE =>   (* ast_none.c:137-173 *)
      [SPrintf [PLit (B "[@"); POrd 0; PLit (B " IN @"); POrd 1];
       SWhen (CSet 2) [SPrintf [PLit (B " WHERE @"); POrd 2]];
       SChar 1 "]"%char ZNext]
  | T_COLLECTION =>   (* ast_collection.c:124-130 *)
      [SSequence 0]
  | T_MAP =>   (* ast_map.c:178-206 *)
      [SChar 0 "{"%char ZNone;
       SEach 0 2 [SPrintf [PIf (CNotFirst) (B ", ") (B ""); PLit (B "@"); PElt 0 0; PLit (B ":@"); PElt 0 1]];
       SChar 0 "}"%char ZNone]
  | T_IDENTIFIER =>   (* ast_identifier.c:84-89 *)
      [SPrintf [PLit (B "`"); PStrF 0; PLit (B "`")]]
  | T_PARAMETER =>   (* ast_parameter.c:84-89 *)
      [SPrintf [PLit (B "$`"); PStrF 0; PLit (B "`")]]
  | T_STRING =>   (* ast_string.c:84-89 *)
      [SPrintf [PLit (B """"); PStrF 0; PLit (B """")]]
  | T_INTEGER =>   (* ast_integer.c:84-89 *)
      [SPrintf [PStrF 0]]
  | T_FLOAT =>   (* ast_float.c:84-89 *)
      [SPrintf [PStrF 0]]
  | T_BOOLEAN => []
  | T_TRUE =>   (* ast_true.c:72-80 *)
      [STerm]
  | T_FALSE =>   (* ast_false.c:72-80 *)
      [STerm]
  | T_NULL =>   (* ast_null.c:72-80 *)
      [STerm]
  | T_LABEL =>   (* ast_label.c:79-84 *)
      [SPrintf [PLit (B ":`"); PStrF 0; PLit (B "`")]]
  | T_RELTYPE =>   (* ast_reltype.c:79-84 *)
      [SPrintf [PLit (B ":`"); PStrF 0; PLit (B "`")]]
  | T_PROP_NAME =>   (* ast_prop_name.c:79-84 *)
      [SPrintf [PLit (B "`"); PStrF 0; PLit (B "`")]]
  | T_FUNCTION_NAME =>   (* ast_function_name.c:81-87 *)
      [SPrintf [PLit (B "`"); PStrF 0; PLit (B "`")]]
  | T_INDEX_NAME =>   (* ast_index_name.c:79-84 *)
      [SPrintf [PLit (B "`"); PStrF 0; PLit (B "`")]]
  | T_PROC_NAME =>   (* ast_proc_name.c:79-84 *)
      [SPrintf [PLit (B "`"); PStrF 0; PLit (B "`")]]
  | T_PATTERN =>   (* ast_pattern.c:121-140 *)
      [SCopy (B "paths=") 6 false;
       SSequence 0]
  | T_NAMED_PATH =>   (* ast_named_path.c:137-146 *)
      [SPrintf [PLit (B "@"); POrd 0; PLit (B " = @"); POrd 1]]
  | T_SHORTEST_PATH =>   (* ast_shortest_path.c:134-144 *)
      [SPrintf [PLit (B "single="); PIf (CFlag 0) (B "true") (B "false"); PLit (B ", path=@"); POrd 1]]
  | T_PATTERN_PATH =>   (* ast_pattern_path.c:179-209 *)
      [SEach 0 1 [SWhen CEven [SPrintf [PLit (B "(@"); PElt 0 0; PLit (B ")")]]; SWhen COdd [SPrintf [PLit (B "-[@"); PElt 0 0; PLit (B "]-")]]]]
  | T_NODE_PATTERN =>   (* ast_node_pattern.c:158-212 *)
      [SChar 0 "("%char ZNone;
       SWhen (CSet 0) [SPrintf [PLit (B "@"); POrd 0]];
       SEach 1 1 [SPrintf [PLit (B ":@"); PElt 1 0]];
       SWhen (CSet 2) [SPrintf [PLit (B " {@"); POrd 2; PLit (B "}")]];
       SChar 0 ")"%char ZNone]
  | T_REL_PATTERN =>   (* ast_rel_pattern.c:188-255 *)
      [SPrintf [PIf (CDir 0 INBOUND) (B "<") (B ""); PLit (B "-[")];
       SWhen (CSet 1) [SPrintf [PLit (B "@"); POrd 1]];
       SEach 2 1 [SPrintf [PIf (CFirst) (B ":") (B "|:"); PLit (B "@"); PElt 2 0]];
       SWhen (CSet 4) [SPrintf [PLit (B "*@"); POrd 4]];
       SWhen (CSet 3) [SPrintf [PLit (B " {@"); POrd 3; PLit (B "}")]];
       SPrintf [PLit (B "]-"); PIf (CDir 0 OUTBOUND) (B ">") (B "")]]
  | T_RANGE =>   (* ast_range.c:101-152 *)
      [SChar 0 "*"%char ZNone;
       SWhen (COr (CSet 0) (CSet 1)) [SWhen (CSet 0) [SPrintf [PLit (B "@"); POrd 0]]; SChar 0 "."%char ZNone; SChar 0 "."%char ZNone; SWhen (CSet 1) [SPrintf [PLit (B "@"); POrd 1]]]]
  | T_COMMAND =>   (* ast_command.c:134-152 *)
      [SPrintf [PLit (B "name=@"); POrd 0; PLit (B ", args=")];
       SSequence 1]
  | T_COMMENT => []
  | T_LINE_COMMENT =>   (* ast_line_comment.c:84-89 *)
      [SPrintf [PLit (B "//"); PStrF 0]]
  | T_BLOCK_COMMENT =>   (* ast_block_comment.c:84-89 *)
      [SPrintf [PLit (B "/*"); PStrF 0; PLit (B "*/")]]
  | T_ERROR =>   (* ast_error.c:79-84 *)
      [SPrintf [PLit (B ">>"); PStrF 0; PLit (B "<<")]]
  | T_MAP_PROJECTION =>   (* ast_map_projection.c:140-186 *)
      [SPrintf [PLit (B "@"); POrd 0; PLit (B "{")];
       SEach 1 1 [SPrintf [PLit (B "@"); PElt 1 0]; SWhen CNotLast [SChar 0 ","%char ZNone; SChar 0 " "%char ZNone]];
       SChar 1 "}"%char ZNext]
  | T_MAP_PROJECTION_SELECTOR => []
  | T_MAP_PROJECTION_LITERAL =>   (* ast_map_projection_literal.c:109-116 *)
      [SPrintf [PLit (B "@"); POrd 0; PLit (B ": @"); POrd 1]]
  | T_MAP_PROJECTION_PROPERTY =>   (* ast_map_projection_property.c:95-101 *)
      [SPrintf [PLit (B ".@"); POrd 0]]
  | T_MAP_PROJECTION_IDENTIFIER =>   (* ast_map_projection_identifier.c:95-101 *)
      [SPrintf [PLit (B "@"); POrd 0]]
  | T_MAP_PROJECTION_ALL_PROPERTIES =>   (* ast_map_projection_all_properties.c:76-80 *)
      [SPrintf [PLit (B ".*")]]
  end.

(** Evaluation.  [ord] gives the ordinal of the node with an identity (its
    address); [None] is the dereference of NULL or of a pointer to no node.
    [i], [cnt]: counter and bound of the enclosing loop, [stride] its stride. *)
Section Eval.
Variable ord : nat -> option nat.
Variable flds : list field.

Fixpoint deval_cond (i cnt : nat) (c : dcond) : option bool :=
  match c with
  | CFlag k => match nth_error flds k with Some (FBool b) => Some b | _ => None end
  | CSet k => match nth_error flds k with
              | Some (FNode (Some _)) => Some true
              | Some (FNode None) => Some false
              | _ => None
              end
  | CSome k => match nth_error flds k with
               | Some (FList (_ :: _)) => Some true
               | Some (FList []) => Some false
               | _ => None
               end
  | CDir k d => match nth_error flds k with
                | Some (FDir e) =>
                    Some (match d, e with
                          | INBOUND, INBOUND | OUTBOUND, OUTBOUND
                          | BIDIRECTIONAL, BIDIRECTIONAL => true
                          | _, _ => false
                          end)
                | _ => None
                end
  | CFirst => Some (Nat.eqb i 0)
  | CNotFirst => Some (0 <? i)
  | CNotLast => Some (S i <? cnt)
  | CEven => Some (Nat.even i)
  | COdd => Some (Nat.odd i)
  | CAnd a b =>
      match deval_cond i cnt a with
      | Some true => deval_cond i cnt b
      | r => r
      end
  | COr a b =>
      match deval_cond i cnt a with
      | Some false => deval_cond i cnt b
      | r => r
      end
  end.

Definition deval_piece (i cnt stride : nat) (p : piece) : option bytes :=
  match p with
  | PLit s => Some s
  | POrd k => match nth_error flds k with
              | Some (FNode (Some x)) => option_map dec (ord x)
              | _ => None
              end
  | PElt k j => match nth_error flds k with
                | Some (FList l) =>
                    match nth_error l (i * stride + j) with
                    | Some x => option_map dec (ord x)
                    | None => None
                    end
                | _ => None
                end
  | PLast k => match nth_error flds k, nth_error flds 0 with
               | Some (FList l), Some (FOpers ops) =>
                   match nth_error l (List.length ops) with
                   | Some x => option_map dec (ord x)
                   | None => None
                   end
               | _, _ => None
               end
  | PStrF k => match nth_error flds k with Some (FStr s) => Some (cstr s) | _ => None end
  | POper k => match nth_error flds k with
               | Some (FOper (Some o)) => Some (ostr o)
               | _ => None
               end
  | PEltOper k => match nth_error flds k with
                  | Some (FOpers l) => option_map ostr (nth_error l i)
                  | _ => None
                  end
  | PIf c a b => match deval_cond i cnt c with
                 | Some true => Some a
                 | Some false => Some b
                 | None => None
                 end
  end.

Fixpoint deval_pieces (i cnt stride : nat) (ps : list piece) : option bytes :=
  match ps with
  | [] => Some []
  | p :: ps =>
      match deval_piece i cnt stride p, deval_pieces i cnt stride ps with
      | Some a, Some b => Some (a ++ b)
      | _, _ => None
      end
  end.

(** ast.c:947-985 snprint_sequence *)
Fixpoint seq_items (l : list nat) : option (list wop) :=
  match l with
  | [] => Some []
  | x :: l =>
      match ord x, seq_items l with
      | Some o, Some r =>
          Some (WPrintf ("@"%char :: dec o) ::
                match l with
                | [] => r
                | _ => WChar 0 ","%char ZNone :: WChar 0 " "%char ZNone :: r
                end)
      | _, _ => None
      end
  end.

Definition seq_ops (l : list nat) : option (list wop) :=
  option_map (fun r => WChar 0 "["%char ZNone :: r ++ [WChar 0 "]"%char ZNone]) (seq_items l).

Definition oapp {X} (a b : option (list X)) : option (list X) :=
  match a, b with Some x, Some y => Some (x ++ y) | _, _ => None end.

Fixpoint deval (i cnt stride : nat) (s : dstmt) : option (list wop) :=
  let evs := fix evs i cnt stride (l : list dstmt) : option (list wop) :=
    match l with
    | [] => Some []
    | s :: l => oapp (deval i cnt stride s) (evs i cnt stride l)
    end in
  match s with
  | SPrintf ps => option_map (fun t => [WPrintf t]) (deval_pieces i cnt stride ps)
  | SChar m c z => Some [WChar m c z]
  | SCopy t adv al => Some [WCopy t adv al]
  | STerm => Some [WTerm]
  | SSequence k => match nth_error flds k with Some (FList l) => seq_ops l | _ => None end
  | SWhen c b =>
      match deval_cond i cnt c with
      | Some true => evs i cnt stride b
      | Some false => Some []
      | None => None
      end
  | SEach k st b =>
      match nth_error flds k with
      | Some (FList l) =>
          let m := List.length l / st in
          fold_right (fun j acc => oapp (evs j m st b) acc) (Some []) (seq 0 m)
      | _ => None
      end
  | SEachOp k st b =>
      match nth_error flds k with
      | Some (FOpers l) =>
          let m := List.length l in
          fold_right (fun j acc => oapp (evs j m st b) acc) (Some []) (seq 0 m)
      | _ => None
      end
  end.

Fixpoint devals (l : list dstmt) : option (list wop) :=
  match l with
  | [] => Some []
  | s :: l => oapp (deval 0 0 1 s) (devals l)
  end.

End Eval.

(** ast.c:921-927 cypher_astnode_detailstr: the new contents of the buffer and
    the returned value.  [None]: undefined behaviour (a bad dereference or a
    write outside of the buffer). *)
Definition detail_ops (ord : nat -> option nat) (n : node) : option (list wop) :=
  devals ord (nflds n) (detail_prog (nty n)).

Definition detailstr (ord : nat -> option nat) (n : node) (buf : bytes) (size : nat)
    : option (bytes * nat) :=
  match detail_ops ord n with
  | None => None
  | Some ops => wrun size ops (buf, 0)
  end.
