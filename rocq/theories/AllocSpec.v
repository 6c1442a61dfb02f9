(** * What C41 says, in terms of what the caller sees *)
From Coq Require Import List Bool Arith ZArith NArith Permutation.
From Verif Require Import AnnotModel OwnModel AllocModel.
Import ListNotations.

(** Every allocation that the parser makes while matching and building trees
    (the sites [SVector] and [SParse]) succeeds; those made by parse_each itself,
    for a segment and for a result ([SOuter]) may fail *)
Definition only_outer_failures (sc : sched) : Prop := forall st n, st <> SOuter -> fails sc st n = false.

Definition no_failures (sc : sched) : Prop := forall st n, fails sc st n = false.

(** the allocations that were made and failed *)
Definition failed_allocation (sc : sched) (st : site) (m : mem) : Prop := exists n, In (st, n) (m_log m) /\ fails sc st n = true.

(** The caller releases the segments [l], one after the other *)
Fixpoint release_all (l : list addr) (o : own) : option own :=
  match l with
  | [] => Some o
  | s :: l => match seg_release s o with Some (o, _) => release_all l o | None => None end
  end.

(** no block is allocated *)
Definition nothing_allocated (o : own) : Prop := o_live o = [].

(** How many of the first [n] segments the callback keeps *)
Definition kept_of (keeps : nat -> bool) (n : nat) : nat := List.length (filter keeps (seq 0 n)).

(** How many segments there are *)
Definition segments_alive (o : own) : nat :=
  List.length (filter (fun a => match o_segs o a with Some _ => true | None => false end) (o_live o)).

(** A callback as [keeping], that goes wrong unless, whenever it is called, the
    segment passed is alive with exactly one reference, and the only other
    segments alive are those it has kept before: every segment passed before and
    not kept is gone. *)
Definition watching (value : nat -> Z) (keeps : nat -> bool) : mcallback := fun i s m =>
  match get_seg (m_own m) s with
  | Some g => if ((g_refcount g =? 1)%N && (segments_alive (m_own m) =? S (kept_of keeps i)))%bool then keeping value keeps i s m else MUndef
  | None => MUndef
  end.
