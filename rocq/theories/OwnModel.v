(** * Who owns which memory: segments and results
    (lib/src/segment.c:24-107, result.c:84-139, 152-170, errors.c:55-64, ast.c:450-456, 492-513)

    Blocks of memory are identified by their addresses.  [free] of a block that
    is not allocated, and any access to a segment or result that is not
    allocated, is undefined behaviour: the outcome [None].

    Simplifications: the blocks that the release function of a node type frees
    (the node itself, its strings and arrays) are given with the tree;
    annotations are in AnnotModel.v.  A directive is a number. *)
From Coq Require Import List Bool Arith NArith.
From Verif Require Import AnnotModel.
Import ListNotations.

(** errors.h: the two strings of an error; NULL is [None] *)
Record serr := mkserr { se_msg : option addr; se_context : option addr }.

(** a tree: the blocks freed by vt->release, the array of children, the children *)
Inductive tree : Set := Tree (own : list addr) (array : option addr) (kids : list tree).

Definition blk (p : option addr) : list addr := match p with Some a => [a] | None => [] end.

(** ast.c:492-513 cypher_ast_free, 450-456 cypher_ast_vfree: the blocks freed, in order *)
Fixpoint tree_frees (t : tree) : list addr :=
  match t with Tree own array kids => own ++ flat_map tree_frees kids ++ blk array end.

(** errors.c:55-64 cp_errors_vcleanup *)
Definition errs_frees (l : list serr) : list addr := flat_map (fun e => blk (se_msg e) ++ blk (se_context e)) l.

(** segment.h:24-38; nerrors and nroots are the lengths of the lists *)
Record segm := mksegm {
  g_refcount : N;
  g_errors : option addr;
  g_errs : list serr;
  g_roots : option addr;
  g_trees : list tree;
  g_nnodes : nat;
  g_directive : option nat;
  g_eof : bool }.

(** result.h *)
Record resl := mkresl {
  r_errors : option addr;
  r_errs : list serr;
  r_roots : option addr;
  r_trees : list tree;
  r_nnodes : nat;
  r_directives : option addr;
  r_dirs : list nat;
  r_dircap : nat;
  r_eof : bool }.

Record own := mkown {
  o_live : list addr;
  o_segs : addr -> option segm;
  o_ress : addr -> option resl }.

Definition live (o : own) (a : addr) : bool := existsb (Nat.eqb a) (o_live o).

Definition free (a : addr) (o : own) : option own :=
  if live o a then Some (mkown (remove Nat.eq_dec a (o_live o)) (o_segs o) (o_ress o)) else None.

Fixpoint free_all (l : list addr) (o : own) : option own :=
  match l with [] => Some o | a :: l => do o <- free a o; free_all l o end.

Definition alloc (a : addr) (o : own) : own := mkown (a :: o_live o) (o_segs o) (o_ress o).

(** reading through a pointer *)
Definition get_seg (o : own) (s : addr) : option segm := if live o s then o_segs o s else None.
Definition get_res (o : own) (r : addr) : option resl := if live o r then o_ress o r else None.
Definition set_seg (o : own) (s : addr) (g : option segm) : own := mkown (o_live o) (upd (o_segs o) s g) (o_ress o).
Definition set_res (o : own) (r : addr) (g : option resl) : own := mkown (o_live o) (o_segs o) (upd (o_ress o) r g).

(** 32-bit unsigned int *)
Definition UINT : N := N.pow 2 32.

(** segment.c:24-75 cypher_parse_segment: [m1], [m2], [m3] are what calloc and
    the two mdup return; [None] inside is the returned NULL *)
Definition seg_new (errs : list serr) (trees : list tree) (nnodes : nat) (dir : option nat) (eof : bool)
    (m1 m2 m3 : option addr) (o : own) : option (own * bool) :=
  match m1 with
  | None => Some (o, false)
  | Some s =>
      let o := alloc s o in
      let fail := fun (e : option addr) o => do o <- free_all (blk e ++ [s]) o; Some (o, false) in
      let rest := fun (e : option addr) o =>
        match trees, m3 with
        | _ :: _, None => fail e o
        | _ :: _, Some b => Some (set_seg (alloc b o) s (Some (mksegm 1 e errs (Some b) trees nnodes dir eof)), true)
        | [], _ => Some (set_seg o s (Some (mksegm 1 e errs None trees nnodes dir eof)), true)
        end in
      match errs, m2 with
      | _ :: _, None => fail None o
      | _ :: _, Some b => rest (Some b) (alloc b o)
      | [], _ => rest None o
      end
  end.

Definition with_refcount (g : segm) (n : N) : segm :=
  mksegm n (g_errors g) (g_errs g) (g_roots g) (g_trees g) (g_nnodes g) (g_directive g) (g_eof g).

(** segment.c:78-83 cypher_parse_segment_retain *)
Definition seg_retain (s : addr) (o : own) : option own :=
  do g <- get_seg o s;
  if N.ltb 0 (g_refcount g) then Some (set_seg o s (Some (with_refcount g ((g_refcount g + 1) mod UINT)))) else None.

(** the blocks that the last release frees, in order *)
Definition seg_frees (s : addr) (g : segm) : list addr :=
  errs_frees (g_errs g) ++ blk (g_errors g) ++ flat_map tree_frees (g_trees g) ++ blk (g_roots g) ++ [s].

(** segment.c:86-107 cypher_parse_segment_release, for a pointer that is not
    NULL; also returns the blocks it frees *)
Definition seg_release (s : addr) (o : own) : option (own * list addr) :=
  do g <- get_seg o s;
  if negb (N.ltb 0 (g_refcount g)) then None
  else if N.ltb 0 (g_refcount g - 1) then Some (set_seg o s (Some (with_refcount g (g_refcount g - 1))), [])
  else do o <- free_all (seg_frees s g) o; Some (set_seg o s None, seg_frees s g).

(** realloc(p, n) returning [a] *)
Definition realloc_to (p : option addr) (a : addr) (o : own) : option own :=
  do o <- free_all (blk p) o; Some (alloc a o).

(** result.c:84-139 cp_result_merge_segment; [m1], [m2], [m3]: what the three
    realloc return.  The returned boolean: success *)
Definition res_merge (r s : addr) (m1 m2 m3 : option addr) (o : own) : option (own * bool) :=
  do g <- get_seg o s;
  do x <- get_res o r;
  let x := mkresl (r_errors x) (r_errs x) (r_roots x) (r_trees x) (r_nnodes x) (r_directives x) (r_dirs x) (r_dircap x)
             (if negb (r_eof x) && g_eof g && (match g_directive g with Some _ => true | None => false end || (0 <? length (g_errs g)))
              then true else r_eof x) in
  let o := set_res o r (Some x) in
  do (o, x, g, ok) <-
    match g_errs g, m1 with
    | [], _ => Some (o, x, g, true)
    | _ :: _, None => Some (o, x, g, false)
    | _ :: _, Some a =>
        do o <- realloc_to (r_errors x) a o;
        let x := mkresl (Some a) (r_errs x ++ g_errs g) (r_roots x) (r_trees x) (r_nnodes x) (r_directives x) (r_dirs x)
                   (r_dircap x) (r_eof x) in
        let g := mksegm (g_refcount g) (g_errors g) [] (g_roots g) (g_trees g) (g_nnodes g) (g_directive g) (g_eof g) in
        Some (set_seg (set_res o r (Some x)) s (Some g), x, g, true)
    end;
  if negb ok then Some (o, false) else
  do (o, x, g, ok) <-
    match g_trees g, m2 with
    | [], _ => Some (o, x, g, true)
    | _ :: _, None => Some (o, x, g, false)
    | _ :: _, Some a =>
        do o <- realloc_to (r_roots x) a o;
        let x := mkresl (r_errors x) (r_errs x) (Some a) (r_trees x ++ g_trees g) (r_nnodes x) (r_directives x) (r_dirs x)
                   (r_dircap x) (r_eof x) in
        let g := mksegm (g_refcount g) (g_errors g) (g_errs g) (g_roots g) [] (g_nnodes g) (g_directive g) (g_eof g) in
        Some (set_seg (set_res o r (Some x)) s (Some g), x, g, true)
    end;
  if negb ok then Some (o, false) else
  let x := mkresl (r_errors x) (r_errs x) (r_roots x) (r_trees x) (r_nnodes x + g_nnodes g) (r_directives x) (r_dirs x)
             (r_dircap x) (r_eof x) in
  let o := set_res o r (Some x) in
  match g_directive g with
  | None => Some (o, true)
  | Some d =>
      if negb (length (r_dirs x) <=? r_dircap x) then None else
      do (o, x, ok) <-
        (if r_dircap x <=? length (r_dirs x) then
           match m3 with
           | None => Some (o, x, false)
           | Some a =>
               do o <- realloc_to (r_directives x) a o;
               let x := mkresl (r_errors x) (r_errs x) (r_roots x) (r_trees x) (r_nnodes x) (Some a) (r_dirs x)
                          (if r_dircap x =? 0 then 8 else r_dircap x * 2) (r_eof x) in
               Some (set_res o r (Some x), x, true)
           end
         else Some (o, x, true));
      if negb ok then Some (o, false) else
      let x := mkresl (r_errors x) (r_errs x) (r_roots x) (r_trees x) (r_nnodes x) (r_directives x) (r_dirs x ++ [d])
                 (r_dircap x) (r_eof x) in
      let g := mksegm (g_refcount g) (g_errors g) (g_errs g) (g_roots g) (g_trees g) (g_nnodes g) None (g_eof g) in
      Some (set_seg (set_res o r (Some x)) s (Some g), true)
  end.

(** result.c:158-170 cypher_parse_result_free *)
Definition res_frees (r : addr) (x : resl) : list addr :=
  errs_frees (r_errs x) ++ blk (r_errors x) ++ flat_map tree_frees (r_trees x) ++ blk (r_roots x) ++ blk (r_directives x) ++ [r].

Definition res_free (r : addr) (o : own) : option (own * list addr) :=
  do x <- get_res o r;
  do o <- free_all (res_frees r x) o; Some (set_res o r None, res_frees r x).

Inductive oop : Set :=
| OAlloc (l : list addr)                    (* the parser allocates strings and nodes *)
| OSegment (errs : list serr) (trees : list tree) (nnodes : nat) (dir : option nat) (eof : bool) (m1 m2 m3 : option addr)
| ORetain (s : addr)
| ORelease (s : addr)
| ORead (s : addr)                          (* segment.c:110-163, the accessors *)
| OResult (r : addr)                        (* parser.c:711: calloc returned r *)
| OMerge (r s : addr) (m1 m2 m3 : option addr)
| OResultRead (r : addr)                    (* result.c:25-81 *)
| OResultFree (r : addr).

Inductive oout : Set :=
| ODone
| OStatus (ok : bool)
| OFreed (l : list addr)
| OSeg (errs : list serr) (trees : list tree) (nnodes : nat) (dir : option nat) (eof : bool)
| ORes (errs : list serr) (trees : list tree) (nnodes : nat) (dirs : list nat) (eof : bool).

Definition ostep (o : own) (p : oop) : option (own * oout) :=
  match p with
  | OAlloc l => Some (mkown (l ++ o_live o) (o_segs o) (o_ress o), ODone)
  | OSegment errs trees nn dir eof m1 m2 m3 =>
      do (o, ok) <- seg_new errs trees nn dir eof m1 m2 m3 o; Some (o, OStatus ok)
  | ORetain s => do o <- seg_retain s o; Some (o, ODone)
  | ORelease s => do (o, l) <- seg_release s o; Some (o, OFreed l)
  | ORead s => do g <- get_seg o s; Some (o, OSeg (g_errs g) (g_trees g) (g_nnodes g) (g_directive g) (g_eof g))
  | OResult r => Some (set_res (alloc r o) r (Some (mkresl None [] None [] 0 None [] 0 false)), ODone)
  | OMerge r s m1 m2 m3 => do (o, ok) <- res_merge r s m1 m2 m3 o; Some (o, OStatus ok)
  | OResultRead r => do x <- get_res o r; Some (o, ORes (r_errs x) (r_trees x) (r_nnodes x) (r_dirs x) (r_eof x))
  | OResultFree r => do (o, l) <- res_free r o; Some (o, OFreed l)
  end.

Fixpoint orun (o : own) (l : list oop) : option (own * list oout) :=
  match l with
  | [] => Some (o, [])
  | p :: l => do (o, r) <- ostep o p; do (o, rs) <- orun o l; Some (o, r :: rs)
  end.

Definition own0 : own := mkown [] (fun _ => None) (fun _ => None).
