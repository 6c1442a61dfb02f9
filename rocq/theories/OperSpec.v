(** * The documented order of operators, written independently of the table *)
From Coq Require Import List.
Import ListNotations.
From Verif Require Import CypherSyntax.

(** The openCypher order of precedence, loosest level first. Each level lists the operators
    that bind equally tightly. (Cypher Reference, "Operator precedence"; the library adds its
    own postfix operators as the two tightest levels.) *)
Definition levels : list (list oper) :=
  [ [OP_OR];
    [OP_XOR];
    [OP_AND];
    [OP_NOT];
    [OP_EQUAL; OP_NEQUAL];
    [OP_LT; OP_GT; OP_LTE; OP_GTE];
    [OP_PLUS; OP_MINUS];
    [OP_MULT; OP_DIV; OP_MOD];
    [OP_POW];
    [OP_UNARY_PLUS; OP_UNARY_MINUS];
    [OP_REGEX; OP_IN; OP_STARTS_WITH; OP_ENDS_WITH; OP_CONTAINS; OP_IS_NULL; OP_IS_NOT_NULL];
    [OP_MAP_PROJECTION; OP_SUBSCRIPT];
    [OP_PROPERTY; OP_LABEL] ].

(** [o] stands on level [i] of the list. *)
Definition on_level (o : oper) (i : nat) : Prop :=
  exists l, nth_error levels i = Some l /\ In o l.

(** [o] binds looser than [o']. *)
Definition looser (o o' : oper) : Prop :=
  exists i j, on_level o i /\ on_level o' j /\ i < j.

(** The operators with one operand. *)
Definition unary_operators : list oper :=
  [OP_NOT; OP_UNARY_PLUS; OP_UNARY_MINUS; OP_IS_NULL; OP_IS_NOT_NULL].
