(** * Annotations (lib/src/annotation.c, annotation.h; ast.c:492-535)

    Nodes, contexts and annotation cells are identified by their addresses.
    The heap maps the addresses of live objects to their fields; an access to
    anything else is undefined behaviour.

    Simplifications: a release handler is identified by a number, its calls are
    recorded, and it does not call back into the library.  A void pointer is a
    number, NULL is [None]. *)
From Coq Require Import List Bool Arith.
Import ListNotations.

Definition addr := nat.

(** annotation.h:23-34 struct cypher_astnode_annotation *)
Record cell := mkcell {
  c_context : option addr;
  c_astnode : option addr;
  c_data : nat;
  c_node_prev : option addr;
  c_node_next : option addr;
  c_ctx_prev : option addr;
  c_ctx_next : option addr }.

(** annotation.h:37-42 struct cypher_ast_annotation_context *)
Record actx := mkactx {
  x_handler : option nat;
  x_userdata : option nat;
  x_annotations : option addr }.

(** [h_nodes]: the field annotations of struct cypher_astnode (astnode.h:47);
    [h_live]: the number of live cells, which bounds the loops *)
Record heap := mkheap {
  h_cells : addr -> option cell;
  h_ctxs : addr -> option actx;
  h_nodes : addr -> option (option addr);
  h_live : nat }.

Definition upd {X} (f : addr -> option X) (a : addr) (v : option X) : addr -> option X :=
  fun b => if Nat.eqb a b then v else f b.

Definition put_cell (h : heap) (a : addr) (v : option cell) : heap :=
  mkheap (upd (h_cells h) a v) (h_ctxs h) (h_nodes h) (h_live h).
Definition put_ctx (h : heap) (a : addr) (v : option actx) : heap :=
  mkheap (h_cells h) (upd (h_ctxs h) a v) (h_nodes h) (h_live h).
Definition put_node (h : heap) (a : addr) (v : option (option addr)) : heap :=
  mkheap (h_cells h) (h_ctxs h) (upd (h_nodes h) a v) (h_live h).
Definition put_live (h : heap) (n : nat) : heap :=
  mkheap (h_cells h) (h_ctxs h) (h_nodes h) n.

Definition obind {X Y} (o : option X) (f : X -> option Y) : option Y :=
  match o with Some x => f x | None => None end.
Notation "'do' x <- o ; f" := (obind o (fun x => f)) (at level 200, x pattern, o at level 100, f at level 200).

Definition oeqb (a b : option addr) : bool :=
  match a, b with Some a, Some b => Nat.eqb a b | None, None => true | _, _ => false end.

Definition with_node_links (c : cell) (p n : option addr) : cell :=
  mkcell (c_context c) (c_astnode c) (c_data c) p n (c_ctx_prev c) (c_ctx_next c).
Definition with_ctx_links (c : cell) (p n : option addr) : cell :=
  mkcell (c_context c) (c_astnode c) (c_data c) (c_node_prev c) (c_node_next c) p n.
Definition with_data (c : cell) (d : nat) : cell :=
  mkcell (c_context c) (c_astnode c) d (c_node_prev c) (c_node_next c) (c_ctx_prev c) (c_ctx_next c).
Definition with_astnode (c : cell) (n : option addr) : cell :=
  mkcell (c_context c) n (c_data c) (c_node_prev c) (c_node_next c) (c_ctx_prev c) (c_ctx_next c).
Definition with_context (c : cell) (x : option addr) : cell :=
  mkcell x (c_astnode c) (c_data c) (c_node_prev c) (c_node_next c) (c_ctx_prev c) (c_ctx_next c).

(** annotation.c:160-170 find_annotation: the loop; [fuel] runs out only if
    the list is longer than the number of live cells *)
Fixpoint find_from (fuel : nat) (h : heap) (ctx : addr) (a : option addr) : option (option addr) :=
  match a with
  | None => Some None
  | Some p =>
      do c <- h_cells h p;
      if oeqb (c_context c) (Some ctx) then Some (Some p)
      else match fuel with 0 => None | S fuel => find_from fuel h ctx (c_node_next c) end
  end.

Definition find_annotation (h : heap) (ctx node : addr) : option (option addr) :=
  do a <- h_nodes h node; find_from (h_live h) h ctx a.

(** annotation.c:173-186 attach_annotation_to_astnode *)
Definition attach_to_astnode (h : heap) (node a : addr) : option heap :=
  do c <- h_cells h a;
  do head <- h_nodes h node;
  let h := put_cell h a (Some (with_node_links (with_astnode c (Some node)) (c_node_prev c) head)) in
  do h <- match head with
          | None => Some h
          | Some q => do d <- h_cells h q; Some (put_cell h q (Some (with_node_links d (Some a) (c_node_next d))))
          end;
  Some (put_node h node (Some (Some a))).

(** annotation.c:189-211 detach_annotation_from_astnode *)
Definition detach_from_astnode (h : heap) (a : addr) : option heap :=
  do c <- h_cells h a;
  do h <- match c_node_next c with
          | None => Some h
          | Some q => do d <- h_cells h q; Some (put_cell h q (Some (with_node_links d (c_node_prev c) (c_node_next d))))
          end;
  do h <- match c_node_prev c with
          | None => do n <- c_astnode c; do _ <- h_nodes h n; Some (put_node h n (Some (c_node_next c)))
          | Some q => do d <- h_cells h q; Some (put_cell h q (Some (with_node_links d (c_node_prev d) (c_node_next c))))
          end;
  do c <- h_cells h a;
  Some (put_cell h a (Some (with_node_links (with_astnode c None) None None))).

(** annotation.c:214-227 attach_annotation_to_context *)
Definition attach_to_context (h : heap) (ctx a : addr) : option heap :=
  do c <- h_cells h a;
  do x <- h_ctxs h ctx;
  let head := x_annotations x in
  let h := put_cell h a (Some (with_ctx_links (with_context c (Some ctx)) (c_ctx_prev c) head)) in
  do h <- match head with
          | None => Some h
          | Some q => do d <- h_cells h q; Some (put_cell h q (Some (with_ctx_links d (Some a) (c_ctx_next d))))
          end;
  Some (put_ctx h ctx (Some (mkactx (x_handler x) (x_userdata x) (Some a)))).

(** annotation.c:230-250 detach_annotation_from_context *)
Definition detach_from_context (h : heap) (a : addr) : option heap :=
  do c <- h_cells h a;
  do h <- match c_ctx_next c with
          | None => Some h
          | Some q => do d <- h_cells h q; Some (put_cell h q (Some (with_ctx_links d (c_ctx_prev c) (c_ctx_next d))))
          end;
  do h <- match c_ctx_prev c with
          | None =>
              do n <- c_context c; do x <- h_ctxs h n;
              Some (put_ctx h n (Some (mkactx (x_handler x) (x_userdata x) (c_ctx_next c))))
          | Some q => do d <- h_cells h q; Some (put_cell h q (Some (with_ctx_links d (c_ctx_prev d) (c_ctx_next c))))
          end;
  do c <- h_cells h a;
  Some (put_cell h a (Some (with_ctx_links (with_context c None) None None))).

(** a call of a release handler: (handler, userdata, node, data) *)
Definition call : Set := nat * option nat * option addr * nat.

(** annotation.c:253-268 cp_release_annotation *)
Definition release_annotation (h : heap) (a : addr) : option (heap * list call) :=
  do c0 <- h_cells h a;
  do ctx <- c_context c0;
  do h <- detach_from_astnode h a;
  do h <- detach_from_context h a;
  do x <- h_ctxs h ctx;
  do c <- h_cells h a;
  let calls := match x_handler x with
               | Some f => [(f, x_userdata x, c_astnode c, c_data c)]
               | None => []
               end in
  Some (put_live (put_cell h a None) (h_live h - 1), calls).

(** annotation.c:66-69, ast.c:499-502, 523-526: the loops; [head] reads the
    list head *)
Fixpoint release_all (fuel : nat) (head : heap -> option (option addr)) (h : heap)
    : option (heap * list call) :=
  do a <- head h;
  match a with
  | None => Some (h, [])
  | Some a =>
      match fuel with
      | 0 => None
      | S fuel =>
          do (h, calls) <- release_annotation h a;
          do (h, calls') <- release_all fuel head h;
          Some (h, calls ++ calls')
      end
  end.

Inductive aop : Set :=
| ANewContext (ctx : addr)                  (* calloc returned ctx *)
| ANewNode (node : addr)                    (* cypher_astnode_init: annotations = NULL *)
| ASetHandler (ctx : addr) (handler : option nat) (userdata : option nat)
| AAttach (ctx node : addr) (data : nat) (mem : option addr)   (* what malloc returns *)
| AGet (ctx node : addr)
| ARemove (ctx node : addr)
| AFreeContext (ctx : addr)
| AFreeNode (node : addr).                  (* one node; a tree is freed node by node *)

Inductive aout : Set :=
| ADone | AStatus (ok : bool) (previous : option nat) | AData (d : option nat).

Definition astep (h : heap) (o : aop) : option (heap * aout * list call) :=
  match o with
  | ANewContext ctx => Some (put_ctx h ctx (Some (mkactx None None None)), ADone, [])
  | ANewNode n => Some (put_node h n (Some None), ADone, [])
  | ASetHandler ctx f u =>                  (* annotation.c:48-55 *)
      do x <- h_ctxs h ctx;
      Some (put_ctx h ctx (Some (mkactx f (match f with None => None | Some _ => u end) (x_annotations x))), ADone, [])
  | AAttach ctx n d mem =>                  (* annotation.c:75-114 *)
      do found <- find_annotation h ctx n;
      match found with
      | Some a =>
          do c <- h_cells h a;
          Some (put_cell h a (Some (with_data c d)), AStatus true (Some (c_data c)), [])
      | None =>
          match mem with
          | None => Some (h, AStatus false None, [])
          | Some a =>
              let h := put_live (put_cell h a (Some (mkcell None None d None None None None))) (S (h_live h)) in
              do h <- attach_to_astnode h n a;
              do h <- attach_to_context h ctx a;
              Some (h, AStatus true None, [])
          end
      end
  | AGet ctx n =>                           (* annotation.c:143-157 *)
      do found <- find_annotation h ctx n;
      match found with
      | None => Some (h, AData None, [])
      | Some a => do c <- h_cells h a; Some (h, AData (Some (c_data c)), [])
      end
  | ARemove ctx n =>                        (* annotation.c:117-140 *)
      do found <- find_annotation h ctx n;
      match found with
      | None => Some (h, AData None, [])
      | Some a =>
          do c <- h_cells h a;
          if oeqb (c_astnode c) (Some n) && oeqb (c_context c) (Some ctx) then
            do h <- detach_from_astnode h a;
            do h <- detach_from_context h a;
            do c <- h_cells h a;
            Some (put_live (put_cell h a None) (h_live h - 1), AData (Some (c_data c)), [])
          else None
      end
  | AFreeContext ctx =>                     (* annotation.c:58-72 *)
      do (h, calls) <- release_all (h_live h) (fun h => do x <- h_ctxs h ctx; Some (x_annotations x)) h;
      Some (put_ctx h ctx None, ADone, calls)
  | AFreeNode n =>                          (* ast.c:492-513, 516-535 *)
      do (h, calls) <- release_all (h_live h) (fun h => h_nodes h n) h;
      Some (put_node h n None, ADone, calls)
  end.

(** results and handler calls of a history *)
Fixpoint arun (h : heap) (l : list aop) : option (heap * list (aout * list call)) :=
  match l with
  | [] => Some (h, [])
  | o :: l =>
      do (h, r, calls) <- astep h o;
      do (h, rs) <- arun h l;
      Some (h, (r, calls) :: rs)
  end.

Definition heap0 : heap := mkheap (fun _ => None) (fun _ => None) (fun _ => None) 0.
