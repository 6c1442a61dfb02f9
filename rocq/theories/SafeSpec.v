(** * Specification vocabulary: comments next to a dot, kinds of nodes *)
From Coq Require Import List Bool Arith Ascii String.
From Verif Require Import Peg QuickModel AstTypes AstModel CypherParse CypherSpec AstSpec.
Import ListNotations.

(** space, tab, end of line *)
Definition is_blank (c : ascii) : Prop := c = " "%char \/ c = "009"%char \/ c = "010"%char \/ c = "013"%char.
Definition all_blank (w : bytes) : Prop := Forall is_blank w.

(** In [inp] some comment is separated from a "." by white space at most:
    it opens after a dot, or it ends before one. *)
Definition comment_beside_dot (inp : bytes) : Prop :=
  exists a w b, all_blank w /\
    (inp = a ++ B "." ++ w ++ B "//" ++ b \/
     inp = a ++ B "." ++ w ++ B "/*" ++ b \/
     inp = a ++ B "*/" ++ w ++ B "." ++ b \/
     exists t, ~ In "010"%char t /\ inp = a ++ B "//" ++ t ++ "010"%char :: w ++ B "." ++ b).

(** no newline after a backquote *)
Definition no_newline_in_names (inp : bytes) : Prop :=
  forall a b c, inp <> a ++ "`"%char :: b ++ "010"%char :: c.

(** ** Nodes as documented *)

(** Parameters (type and position) for which the parser passes something else
    than the documentation asks for. *)
Definition parser_differs : list (asttype * nat) :=
  [ (T_WITH, 4); (T_WITH, 5); (T_RETURN, 4); (T_RETURN, 5);   (* SKIP and LIMIT: any expression, not just integers *)
    (T_CASE, 0);                                              (* null for CASE WHEN ... *)
    (T_PATTERN_COMPREHENSION, 1);                             (* a pattern path, not a pattern *)
    (T_CREATE_REL_PROP_CONSTRAINT, 1); (T_DROP_REL_PROP_CONSTRAINT, 1) ].  (* a relationship type, not a label *)

(** The node is what its constructor makes of its parameters; all nodes among
    the parameters, also those in arrays, are children of the node; and, except
    at the positions [ex], the parameters are as documented (see
    [AstSpec.meets]). *)
Definition documented_but (ex : list (asttype * nat)) (x : node) : Prop :=
  exists ps ds, construct (nid x) (nty x) ps (nkids x) (nrng x)
                  = Some (Node (nid x) (nty x) (nrng x) (nflds x) (nkids x) 0) /\
    (forall y, In (PN (Some y)) ps -> In y (nkids x)) /\
    (forall l y, In (PL l) ps -> In y l -> In y (nkids x)) /\
    (terminal (nty x) = true -> nkids x = []) /\
    doc_params (nty x) = Some ds /\ List.length ps = List.length ds /\
    forall i d p, nth_error ds i = Some d -> nth_error ps i = Some p -> ~ In (nty x, i) ex ->
      meets true (nkids x) d p.
Definition as_documented (x : node) : Prop := documented_but parser_differs x.
