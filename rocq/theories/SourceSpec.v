(** * What may depend on how the input arrives

    The context of an error (cypher_parse_error_context) is cut out of what is in the buffer.
    Everything else of a result is compared. *)
From Coq Require Import List ZArith.
From Verif Require Import Peg QuickModel ErrModel AstModel CypherParse.
Import ListNotations.

(** an error without its context *)
Definition plain_error (e : perror) : perror := mkerr (pe_pos e) (pe_msg e) None.

Definition plain_segment (s : segment) : segment :=
  mkseg (s_range s) (map plain_error (s_errors s)) (s_roots s) (s_nnodes s) (s_directive s) (s_eof s).

(** an outcome without the contexts of the errors *)
Definition plain_result (r : presult) : presult :=
  match r with
  | PRet z segs last => PRet z (map plain_segment segs) last
  | x => x
  end.

(** a callback that does not look at the contexts *)
Definition ignores_contexts (cb : callback) : Prop :=
  forall l l', map plain_segment l = map plain_segment l' -> cb l = cb l'.
