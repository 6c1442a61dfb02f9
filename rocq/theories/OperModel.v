(** * Operators (lib/src/operators.c, operators.h) *)
From Verif Require Import Peg CypherSyntax.

(** operators.h:23-28 enum associativity *)
Inductive assoc : Set := LEFT_ASSOC | RIGHT_ASSOC | UNARY.

(** operators.c: the [.precedence] of each operator *)
Definition oprec (o : oper) : nat :=
  match o with
  | OP_OR => 1   (* :24 *)
  | OP_XOR => 2   (* :29 *)
  | OP_AND => 3   (* :34 *)
  | OP_NOT => 4   (* :39 *)
  | OP_EQUAL => 5   (* :44 *)
  | OP_NEQUAL => 5   (* :48 *)
  | OP_LT => 6   (* :53 *)
  | OP_GT => 6   (* :57 *)
  | OP_LTE => 6   (* :61 *)
  | OP_GTE => 6   (* :65 *)
  | OP_PLUS => 7   (* :70 *)
  | OP_MINUS => 7   (* :74 *)
  | OP_MULT => 8   (* :79 *)
  | OP_DIV => 8   (* :83 *)
  | OP_MOD => 8   (* :87 *)
  | OP_POW => 9   (* :92 *)
  | OP_UNARY_PLUS => 10   (* :97 *)
  | OP_UNARY_MINUS => 10   (* :101 *)
  | OP_REGEX => 11   (* :106 *)
  | OP_IN => 11   (* :110 *)
  | OP_STARTS_WITH => 11   (* :114 *)
  | OP_ENDS_WITH => 11   (* :118 *)
  | OP_CONTAINS => 11   (* :122 *)
  | OP_IS_NULL => 11   (* :126 *)
  | OP_IS_NOT_NULL => 11   (* :130 *)
  | OP_MAP_PROJECTION => 12   (* :135 *)
  | OP_SUBSCRIPT => 12   (* :139 *)
  | OP_PROPERTY => 13   (* :144 *)
  | OP_LABEL => 13   (* :148 *)
  end.

(** operators.c: the [.associativity] of each operator *)
Definition oassoc (o : oper) : assoc :=
  match o with
  | OP_OR => LEFT_ASSOC
  | OP_XOR => LEFT_ASSOC
  | OP_AND => LEFT_ASSOC
  | OP_NOT => UNARY
  | OP_EQUAL => LEFT_ASSOC
  | OP_NEQUAL => LEFT_ASSOC
  | OP_LT => LEFT_ASSOC
  | OP_GT => LEFT_ASSOC
  | OP_LTE => LEFT_ASSOC
  | OP_GTE => LEFT_ASSOC
  | OP_PLUS => LEFT_ASSOC
  | OP_MINUS => LEFT_ASSOC
  | OP_MULT => LEFT_ASSOC
  | OP_DIV => LEFT_ASSOC
  | OP_MOD => LEFT_ASSOC
  | OP_POW => RIGHT_ASSOC
  | OP_UNARY_PLUS => UNARY
  | OP_UNARY_MINUS => UNARY
  | OP_REGEX => LEFT_ASSOC
  | OP_IN => LEFT_ASSOC
  | OP_STARTS_WITH => LEFT_ASSOC
  | OP_ENDS_WITH => LEFT_ASSOC
  | OP_CONTAINS => LEFT_ASSOC
  | OP_IS_NULL => UNARY
  | OP_IS_NOT_NULL => UNARY
  | OP_MAP_PROJECTION => LEFT_ASSOC
  | OP_SUBSCRIPT => LEFT_ASSOC
  | OP_PROPERTY => LEFT_ASSOC
  | OP_LABEL => LEFT_ASSOC
  end.

(** operators.c: the [.str] of each operator *)
Definition ostr (o : oper) : bytes :=
  match o with
  | OP_OR => B "OR"
  | OP_XOR => B "XOR"
  | OP_AND => B "AND"
  | OP_NOT => B "NOT"
  | OP_EQUAL => B "="
  | OP_NEQUAL => B "<>"
  | OP_LT => B "<"
  | OP_GT => B ">"
  | OP_LTE => B "<="
  | OP_GTE => B ">="
  | OP_PLUS => B "+"
  | OP_MINUS => B "-"
  | OP_MULT => B "*"
  | OP_DIV => B "/"
  | OP_MOD => B "%"
  | OP_POW => B "^"
  | OP_UNARY_PLUS => B "+"
  | OP_UNARY_MINUS => B "-"
  | OP_REGEX => B "=~"
  | OP_IN => B "IN"
  | OP_STARTS_WITH => B "STARTS WITH"
  | OP_ENDS_WITH => B "ENDS WITH"
  | OP_CONTAINS => B "CONTAINS"
  | OP_IS_NULL => B "IS NULL"
  | OP_IS_NOT_NULL => B "IS NOT NULL"
  | OP_MAP_PROJECTION => B "{"
  | OP_SUBSCRIPT => B "["
  | OP_PROPERTY => B "."
  | OP_LABEL => B ":"
  end.

Definition all_opers : list oper :=
  [OP_OR; OP_XOR; OP_AND; OP_NOT; OP_EQUAL; OP_NEQUAL; OP_LT; OP_GT; OP_LTE; OP_GTE; OP_PLUS; OP_MINUS; OP_MULT; OP_DIV; OP_MOD; OP_POW; OP_UNARY_PLUS; OP_UNARY_MINUS; OP_REGEX; OP_IN; OP_STARTS_WITH; OP_ENDS_WITH; OP_CONTAINS; OP_IS_NULL; OP_IS_NOT_NULL; OP_MAP_PROJECTION; OP_SUBSCRIPT; OP_PROPERTY; OP_LABEL].
