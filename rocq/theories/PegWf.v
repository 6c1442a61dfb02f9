(** * Static analyses of grammars (definitions)

    These are not models of repository code: they are decision procedures
    about grammars, proved sound in PegProofs.v and run by computation on the
    grammars of QuickGrammar.v and CypherGrammar.v. *)
From Verif Require Import Peg.

Section Wf.
Context {R A Q : Type}.
Notation pexp := (pexp R A Q).

(** May [e] succeed without consuming input, given a table for rules? *)
Fixpoint nullable (nl : R -> bool) (e : pexp) : bool :=
  match e with
  | PDot | PChar _ | PClass _ => false
  | PStr s => match s with [] => true | _ => false end
  | PRule r => nl r
  | PSeq e1 e2 => nullable nl e1 && nullable nl e2
  | PAlt e1 e2 => nullable nl e1 || nullable nl e2
  | PStar _ | PQuery _ | PAnd _ | PNot _ | PAct _ | PPred _ => true
  | PPlus e => nullable nl e
  | PErr e _ => nullable nl e
  end.

(** [wf nl rk k e]: every rule reachable in [e] before input is consumed has
    rank below [k], and no loop body is nullable.  [kmax] bounds all ranks. *)
Fixpoint wf (nl : R -> bool) (rk : R -> nat) (kmax k : nat) (e : pexp) : bool :=
  match e with
  | PDot | PChar _ | PStr _ | PClass _ | PAct _ | PPred _ => true
  | PRule r => Nat.ltb (rk r) k
  | PSeq e1 e2 =>
      wf nl rk kmax k e1 &&
      wf nl rk kmax (if nullable nl e1 then k else kmax) e2
  | PAlt e1 e2 => wf nl rk kmax k e1 && wf nl rk kmax k e2
  | PStar e | PPlus e =>
      negb (nullable nl e) && wf nl rk kmax k e && wf nl rk kmax kmax e
  | PQuery e | PAnd e | PNot e => wf nl rk kmax k e
  | PErr e _ => wf nl rk kmax k e
  end.

Fixpoint esize (e : pexp) : nat :=
  match e with
  | PDot | PChar _ | PStr _ | PClass _ | PAct _ | PPred _ | PRule _ => 1
  | PSeq e1 e2 | PAlt e1 e2 => S (esize e1 + esize e2)
  | PStar e | PQuery e | PAnd e | PNot e | PErr e _ => S (esize e)
  | PPlus e => S (S (esize e))
  end.

(** A rule is well formed if its table entries are justified. *)
Definition wf_rule (G : R -> pexp) (nl : R -> bool) (rk : R -> nat)
    (kmax m : nat) (r : R) : bool :=
  implb (nullable nl (G r)) (nl r) &&
  wf nl rk kmax (rk r) (G r) &&
  Nat.ltb (rk r) kmax &&
  Nat.leb (esize (G r)) m.

End Wf.
