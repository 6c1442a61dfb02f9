(** * What a tree says

    The content of an AST node as its accessor functions show it: the type, and
    for each parameter of the constructor (see ctor_kinds in AstTypes.v) the node
    or nodes, flag, direction, operator or text.  Identities, ranges, ordinals and
    comments are left out. *)
From Coq Require Import List Bool Arith Ascii String.
From Verif Require Import Peg QuickModel CypherSyntax OperModel ErrModel AstTypes AstModel.
Import ListNotations.

Inductive term : Set := T (ty : asttype) (fs : list tfield)
with tfield : Set :=
| TNode (o : option term)
| TList (l : list term)
| TBool (b : bool)
| TDir (d : dir)
| TOper (o : option oper)
| TOpers (l : list oper)
| TStr (s : bytes)
| TBad.  (* refers to a node that is not a child *)

Fixpoint find_id (l : list (nat * term)) (i : nat) : option term :=
  match l with
  | [] => None
  | (j, t) :: l => if Nat.eqb i j then Some t else find_id l i
  end.

Fixpoint find_ids (l : list (nat * term)) (is : list nat) : option (list term) :=
  match is with
  | [] => Some []
  | i :: is => match find_id l i, find_ids l is with Some t, Some ts => Some (t :: ts) | _, _ => None end
  end.

Definition tfield_of (kids : list (nat * term)) (f : field) : tfield :=
  match f with
  | FNode None => TNode None
  | FNode (Some i) => match find_id kids i with Some t => TNode (Some t) | None => TBad end
  | FList is => match find_ids kids is with Some ts => TList ts | None => TBad end
  | FBool b => TBool b
  | FDir d => TDir d
  | FOper o => TOper o
  | FOpers l => TOpers l
  | FStr s => TStr s
  end.

Fixpoint term_of (n : node) : term :=
  match n with
  | Node _ ty _ fs ks _ => T ty (map (tfield_of (map (fun k => (nid k, term_of k)) ks)) fs)
  end.
