(** * Annotations as a finite map

    The annotations are a list of (context, node, data), the newest first, with
    at most one per context and node. *)
From Coq Require Import List Bool Arith.
From Verif Require Import AnnotModel.
Import ListNotations.

Record entry := mkent { en_ctx : addr; en_node : addr; en_data : nat }.

(** handlers of the live contexts; live nodes; annotations *)
Record world := mkworld {
  w_ctxs : addr -> option (option nat * option nat);
  w_nodes : addr -> bool;
  w_entries : list entry }.

Definition is_at (ctx node : addr) (e : entry) : bool := Nat.eqb (en_ctx e) ctx && Nat.eqb (en_node e) node.

(** the data attached to a node in a context *)
Definition attached (w : world) (ctx node : addr) : option nat :=
  option_map en_data (find (is_at ctx node) (w_entries w)).

Definition set_data (ctx node d : nat) (e : entry) : entry :=
  if is_at ctx node e then mkent ctx node d else e.

(** the call of the handler of [ctx] for an annotation; [with_node]: whether it
    is told the node *)
Definition handler_call (with_node : bool) (w : world) (e : entry) : list call :=
  match w_ctxs w (en_ctx e) with
  | Some (Some f, u) => [(f, u, if with_node then Some (en_node e) else None, en_data e)]
  | _ => []
  end.

Definition with_entries (w : world) (l : list entry) : world := mkworld (w_ctxs w) (w_nodes w) l.

(** what each operation returns and does; [with_node] as above *)
Definition world_step (with_node : bool) (w : world) (o : aop) : world * aout * list call :=
  match o with
  | ANewContext c => (mkworld (upd (w_ctxs w) c (Some (None, None))) (w_nodes w) (w_entries w), ADone, [])
  | ANewNode n => (mkworld (w_ctxs w) (fun m => Nat.eqb n m || w_nodes w m) (w_entries w), ADone, [])
  | ASetHandler c f u =>
      (mkworld (upd (w_ctxs w) c (Some (f, match f with None => None | Some _ => u end))) (w_nodes w) (w_entries w), ADone, [])
  | AAttach c n d mem =>
      match attached w c n, mem with
      | Some old, _ => (with_entries w (map (set_data c n d) (w_entries w)), AStatus true (Some old), [])
      | None, None => (w, AStatus false None, [])
      | None, Some _ => (with_entries w (mkent c n d :: w_entries w), AStatus true None, [])
      end
  | AGet c n => (w, AData (attached w c n), [])
  | ARemove c n =>
      (with_entries w (filter (fun e => negb (is_at c n e)) (w_entries w)), AData (attached w c n), [])
  | AFreeContext c =>
      (mkworld (upd (w_ctxs w) c None) (w_nodes w) (filter (fun e => negb (Nat.eqb (en_ctx e) c)) (w_entries w)), ADone,
       flat_map (handler_call with_node w) (filter (fun e => Nat.eqb (en_ctx e) c) (w_entries w)))
  | AFreeNode n =>
      (mkworld (w_ctxs w) (fun m => negb (Nat.eqb n m) && w_nodes w m)
               (filter (fun e => negb (Nat.eqb (en_node e) n)) (w_entries w)), ADone,
       flat_map (handler_call with_node w) (filter (fun e => Nat.eqb (en_node e) n) (w_entries w)))
  end.

(** the caller uses live contexts and nodes, and new ones are new *)
Definition allowed (w : world) (o : aop) : Prop :=
  match o with
  | ANewContext c => w_ctxs w c = None
  | ANewNode n => w_nodes w n = false
  | ASetHandler c _ _ | AFreeContext c => w_ctxs w c <> None
  | AAttach c n _ _ | AGet c n | ARemove c n => w_ctxs w c <> None /\ w_nodes w n = true
  | AFreeNode n => w_nodes w n = true
  end.

Definition world0 : world := mkworld (fun _ => None) (fun _ => false) [].

(** [l] is used correctly from [w] on, giving these results *)
Inductive world_run (with_node : bool) : world -> list aop -> world -> list (aout * list call) -> Prop :=
| wr_nil : forall w, world_run with_node w [] w []
| wr_cons : forall w o w' r calls l w'' rs,
    allowed w o -> world_step with_node w o = (w', r, calls) ->
    world_run with_node w' l w'' rs -> world_run with_node w (o :: l) w'' ((r, calls) :: rs).

(** malloc returns cells that are not in use *)
Fixpoint fresh_run (h : heap) (l : list aop) : Prop :=
  match l with
  | [] => True
  | o :: l =>
      match o with AAttach _ _ _ (Some a) => h_cells h a = None | _ => True end /\
      match astep h o with Some (h, _, _) => fresh_run h l | None => True end
  end.

(** ** From the history alone *)

(** the data attached to [n] in [c] after a history *)
Definition current_step (c n : addr) (cur : option nat) (o : aop) : option nat :=
  match o with
  | AAttach c' n' d mem =>
      if Nat.eqb c' c && Nat.eqb n' n
      then match cur, mem with
           | None, None => None               (* malloc failed *)
           | _, _ => Some d
           end
      else cur
  | ARemove c' n' => if Nat.eqb c' c && Nat.eqb n' n then None else cur
  | AFreeContext c' => if Nat.eqb c' c then None else cur
  | AFreeNode n' => if Nat.eqb n' n then None else cur
  | _ => cur
  end.
Definition current (l : list aop) (c n : addr) : option nat := fold_left (current_step c n) l None.

(** the handler and userdata of [c] after a history *)
Definition handler_step (c : addr) (cur : option (nat * option nat)) (o : aop) : option (nat * option nat) :=
  match o with
  | ANewContext c' => if Nat.eqb c' c then None else cur
  | ASetHandler c' (Some f) u => if Nat.eqb c' c then Some (f, u) else cur
  | ASetHandler c' None _ => if Nat.eqb c' c then None else cur
  | AFreeContext c' => if Nat.eqb c' c then None else cur
  | _ => cur
  end.
Definition handler (l : list aop) (c : addr) : option (nat * option nat) := fold_left (handler_step c) l None.

(** one call of the handler of [c] for data [d] *)
Definition one_call (l : list aop) (node : option addr) (c : addr) (d : nat) : list call :=
  match handler l c with Some (f, u) => [(f, u, node, d)] | None => [] end.

(** contexts and nodes created and not freed in a history *)
Definition live_ctx (l : list aop) (c : addr) : bool :=
  fold_left (fun b o => match o with
                        | ANewContext c' => Nat.eqb c' c || b
                        | AFreeContext c' => negb (Nat.eqb c' c) && b
                        | _ => b
                        end) l false.
Definition live_node (l : list aop) (n : addr) : bool :=
  fold_left (fun b o => match o with
                        | ANewNode n' => Nat.eqb n' n || b
                        | AFreeNode n' => negb (Nat.eqb n' n) && b
                        | _ => b
                        end) l false.

(** each operation is applied to contexts and nodes that exist, and new ones
    are at addresses that are not in use *)
Definition well_used (l : list aop) : Prop :=
  forall l1 o l2, l = l1 ++ o :: l2 ->
  match o with
  | ANewContext c => live_ctx l1 c = false
  | ANewNode n => live_node l1 n = false
  | ASetHandler c _ _ | AFreeContext c => live_ctx l1 c = true
  | AAttach c n _ _ | AGet c n | ARemove c n => live_ctx l1 c = true /\ live_node l1 n = true
  | AFreeNode n => live_node l1 n = true
  end.
