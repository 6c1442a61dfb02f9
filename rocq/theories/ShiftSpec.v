(** * Translation of positions and ordinals (specification for C42) *)
From Coq Require Import List Arith.
From Verif Require Import QuickModel ErrModel AstModel CypherExec CypherParse.
Import ListNotations.

(** Where [q] is, if the input starts at [p] and not at line 1, column 1,
    offset 0: the lines and offsets move, the columns only in the first line. *)
Definition translate (p q : position) : position :=
  mkpos (line q - 1 + line p)
        (if Nat.eqb (line q) 1 then column q - 1 + column p else column q)
        (offset q + offset p).

Definition translate_range (p : position) (r : range) : range :=
  mkrange (translate p (r_start r)) (translate p (r_end r)).

Fixpoint translate_node (p : position) (o : nat) (n : node) : node :=
  match n with
  | Node i t r f ks k => Node i t (translate_range p r) f (map (translate_node p o) ks) (k + o)
  end.

Definition translate_error (p : position) (x : perror) : perror :=
  mkerr (translate p (pe_pos x)) (pe_msg x) (pe_ctx x).

Definition translate_segment (p : position) (o : nat) (s : segment) : segment :=
  mkseg (translate_range p (s_range s)) (map (translate_error p) (s_errors s))
        (map (translate_node p o) (s_roots s)) (s_nnodes s) (s_directive s) (s_eof s).

Definition translate_presult (p : position) (o : nat) (r : presult) : presult :=
  match r with
  | PRet ret segs last => PRet ret (map (translate_segment p o) segs) (option_map (translate p) last)
  | PFailed => PFailed | PAssert => PAssert | PInvalid => PInvalid | PUninit => PUninit | PFuel => PFuel
  end.

Definition translate_result (p : position) (o : nat) (r : result) : result :=
  mkres (map (translate_node p o) (pr_roots r)) (pr_nnodes r) (map (translate_error p) (pr_errors r))
        (pr_directives r) (pr_eof r).

Definition translate_all (p : position) (o : nat) (r : presult_all) : presult_all :=
  match r with
  | ARes r last => ARes (translate_result p o r) (option_map (translate p) last)
  | ANone => ANone
  | ABad b => ABad (translate_presult p o b)
  end.
