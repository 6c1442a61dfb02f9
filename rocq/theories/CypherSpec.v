(** * Specification vocabulary for full parsing

    Independent of the grammar, the matching machine, thunks and blocks.  From
    the model only the data a user sees: positions, ranges, nodes, errors,
    segments, results. *)
From Coq Require Import List Bool Arith ZArith Sorted.
From Verif Require Import Peg QuickModel QuickSpec ErrModel AstTypes AstModel CypherParse.
Import ListNotations.

(** all nodes of a tree, parents before children *)
Fixpoint preorder (t : node) : list node :=
  match t with Node _ _ _ _ ks _ => t :: flat_map preorder ks end.

Definition forest (ts : list node) : list node := flat_map preorder ts.

Definition seg_start (s : segment) : position := r_start (s_range s).
Definition seg_end (s : segment) : position := r_end (s_range s).

(** successive segments from [p] to [q], without gap or overlap, none empty *)
Inductive tiles : position -> list segment -> position -> Prop :=
| tiles_nil : forall p, tiles p [] p
| tiles_cons : forall s segs q,
    offset (seg_start s) < offset (seg_end s) ->
    tiles (seg_end s) segs q -> tiles (seg_start s) (s :: segs) q.

(** end of the last segment, if any *)
Definition last_end (segs : list segment) : option position :=
  match rev segs with [] => None | s :: _ => Some (seg_end s) end.

(** [p] is the position, for a text [inp] that starts at [p0], just before
    the byte number [k] *)
Definition true_position (p0 : position) (inp : bytes) (k : nat) (p : position) : Prop :=
  k <= List.length inp /\ p = walk p0 (firstn k inp).

(** every position in a segment is that of a byte of the text, or of its end *)
Definition positions_true (p0 : position) (inp : bytes) (s : segment) : Prop :=
  let right p := exists k, true_position p0 inp k p in
  right (seg_start s) /\ right (seg_end s) /\
  Forall (fun n => right (r_start (nrng n)) /\ right (r_end (nrng n))) (forest (s_roots s)) /\
  Forall (fun e => right (pe_pos e)) (s_errors s).

(** a node lies in its parent, and the children are ordered by where they end *)
Definition nested (n : node) : Prop :=
  offset (r_start (nrng n)) <= offset (r_end (nrng n)) /\
  (forall k, In k (nkids n) ->
     offset (r_start (nrng n)) <= offset (r_start (nrng k)) /\
     offset (r_end (nrng k)) <= offset (r_end (nrng n))) /\
  StronglySorted le (map (fun k => offset (r_end (nrng k))) (nkids n)).

(** a node lies in its segment *)
Definition inside (s : segment) (n : node) : Prop :=
  offset (seg_start s) <= offset (r_start (nrng n)) /\ offset (r_end (nrng n)) <= offset (seg_end s).

(** what a callback that answers [cb] is given of the segments [all], and what
    the call returns *)
Fixpoint deliver (cb : callback) (single : bool) (seen rest : list segment) : Z * list segment :=
  match rest with
  | [] => (0%Z, seen)
  | s :: rest =>
      let seen' := seen ++ [s] in
      if (0 <? cb seen')%Z then (0%Z, seen')
      else if (cb seen' <? 0)%Z then (cb seen', seen')
      else if single then (0%Z, seen')
      else deliver cb single seen' rest
  end.
