(** * Correct use of segments and results

    A ledger that only counts: how many references to a segment are
    outstanding, which results have not been freed, and which strings and nodes
    the parser still holds. *)
From Coq Require Import List Bool Arith NArith.
From Verif Require Import AnnotModel OwnModel.
Import ListNotations.

Record ledger := mkledger {
  refs : addr -> N;
  results : addr -> bool;
  loose : addr -> bool }.

Definition ledger0 : ledger := mkledger (fun _ => 0%N) (fun _ => false) (fun _ => false).

Definition put {X} (f : addr -> X) (a : addr) (v : X) : addr -> X := fun b => if Nat.eqb a b then v else f b.
Definition inside (l : list addr) (a : addr) : bool := existsb (Nat.eqb a) l.

(** what a segment made of these errors and trees takes over *)
Definition given (errs : list serr) (trees : list tree) : list addr := errs_frees errs ++ flat_map tree_frees trees.

Definition ledger_step (w : ledger) (p : oop) (r : oout) : ledger :=
  match p, r with
  | OAlloc l, _ => mkledger (refs w) (results w) (fun a => inside l a || loose w a)
  | OSegment errs trees _ _ _ (Some s) _ _, OStatus true =>
      mkledger (put (refs w) s 1%N) (results w) (fun a => negb (inside (given errs trees) a) && loose w a)
  | ORetain s, _ => mkledger (put (refs w) s (refs w s + 1)%N) (results w) (loose w)
  | ORelease s, _ => mkledger (put (refs w) s (refs w s - 1)%N) (results w) (loose w)
  | OResult r, _ => mkledger (refs w) (put (results w) r true) (loose w)
  | OResultFree r, _ => mkledger (refs w) (put (results w) r false) (loose w)
  | _, _ => w
  end.

(** the caller holds a reference to what it uses; fewer than 2^32 references *)
Definition oallowed (w : ledger) (p : oop) : Prop :=
  match p with
  | OAlloc _ | OResult _ => True
  | OSegment errs trees _ _ _ _ _ _ => NoDup (given errs trees) /\ forall a, In a (given errs trees) -> loose w a = true
  | ORetain s => (0 < refs w s)%N /\ (refs w s + 1 < UINT)%N
  | ORelease s | ORead s => (0 < refs w s)%N
  | OMerge r s _ _ _ => (0 < refs w s)%N /\ results w r = true
  | OResultRead r | OResultFree r => results w r = true
  end.

(** the allocator returns blocks that are not in use; realloc may return the
    block it was given *)
Definition ofresh (o : own) (p : oop) : Prop :=
  match p with
  | OAlloc l => NoDup l /\ forall a, In a l -> live o a = false
  | OResult r => live o r = false
  | OSegment _ _ _ _ _ m1 m2 m3 =>
      NoDup (blk m1 ++ blk m2 ++ blk m3) /\ forall a, In a (blk m1 ++ blk m2 ++ blk m3) -> live o a = false
  | OMerge r _ m1 m2 m3 =>
      NoDup (blk m1 ++ blk m2 ++ blk m3) /\
      (forall x a, o_ress o r = Some x -> m1 = Some a -> live o a = false \/ r_errors x = Some a) /\
      (forall x a, o_ress o r = Some x -> m2 = Some a -> live o a = false \/ r_roots x = Some a) /\
      (forall x a, o_ress o r = Some x -> m3 = Some a -> live o a = false \/ r_directives x = Some a)
  | _ => True
  end.

Fixpoint good_run (o : own) (w : ledger) (l : list oop) : Prop :=
  match l with
  | [] => True
  | p :: l =>
      oallowed w p /\ ofresh o p /\
      match ostep o p with Some (o, r) => good_run o (ledger_step w p r) l | None => True end
  end.

Fixpoint ledger_run (w : ledger) (l : list oop) (rs : list oout) : ledger :=
  match l, rs with
  | p :: l, r :: rs => ledger_run (ledger_step w p r) l rs
  | _, _ => w
  end.
