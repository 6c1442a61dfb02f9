(** * A static analysis of the actions of parser.leg

    Not a model of any code of the library: a checker, run once on the grammar,
    that follows the deferred actions along every path through a rule and shows
    that none of them can fail (FlowSound.v).  It keeps track of the types of
    the nodes in variables, of which block's children contain them, and of the
    shape of the sequences that are accumulated. *)
From Coq Require Import List Bool Arith NArith.
From Verif Require Import Peg CypherSyntax CypherGrammar AstTypes AstModel CypherBuild CypherExec AstSpec SafeSpec.
Import ListNotations.

(** ** Sets of node types *)
Definition tset := N.
Definition tnum (t : asttype) : N := N.of_nat (type_idx t).
Definition tin (t : asttype) (s : tset) : bool := N.testbit s (tnum t).
Definition tone (t : asttype) : tset := N.setbit 0%N (tnum t).
Definition tsub (a b : tset) : bool := N.eqb (N.land a b) a.
Definition tmeet (a b : tset) : bool := negb (N.eqb (N.land a b) 0%N).
Definition tunion (a b : tset) : tset := N.lor a b.

(** the types that are instances of [t] *)
Definition is_ty (x t : asttype) : bool :=
  match instanceof_ty x t with Some b => b | None => false end.
Definition below_of (t : asttype) : tset :=
  fold_right (fun x acc => if is_ty x t then N.setbit acc (tnum x) else acc) 0%N all_types.
Definition below_tab : list tset := Eval vm_compute in map below_of all_types.
Definition below (t : asttype) : tset := nth (type_idx t) below_tab 0%N.

(** ** Abstract values *)
Inductive aloc : Set :=
| In_ (d : nat)        (* among the children of the d-th open block, from the outermost *)
| InPrev               (* among those of the block closed last *)
| Nowhere.
Record aval : Set := mkav { v_null : bool; v_ty : tset; v_loc : aloc }.
Definition null_val : aval := mkav true 0%N Nowhere.

(** sequences: one element, or any number of repetitions of a group *)
Inductive item : Set := One (t : tset) | Many (l : list tset).
Definition aseq := list item.

Record ablk : Set := mkab {
  k_sur : nat;           (* how many more children than elements of the sequence, at least *)
  k_empty : bool;        (* no children *)
  k_seq : aseq }.
Definition fresh_blk : ablk := mkab 0 true [].

(** the block closed last: none; none or the one on entry to the rule; none or
    one without children; one *)
Inductive aprev : Set := ANone | AQuiet | AClean | ASome (k : ablk).

(** operators on the stack since the rule was entered: a number, or in relation
    to the length of the sequence of the innermost / last closed block *)
Inductive aops : Set := OLen (k : nat) | OTop (k : nat) | OPrev.

(** [$$] and the result: as on entry, known, or unknown *)
Inductive aret : Set := RKeep | RVal (v : aval) | RAny.

Record aenv : Set := mkae {
  x_frames : list (list (option aval));
  x_blocks : list ablk;
  x_prev : aprev;
  x_ops : aops;
  x_ret : aret;
  x_res : aret }.

Definition entry_env : aenv := mkae [] [fresh_blk] AQuiet (OLen 0) RKeep RKeep.

(** ** Order *)
Definition aloc_eqb (a b : aloc) : bool :=
  match a, b with
  | In_ x, In_ y => Nat.eqb x y
  | InPrev, InPrev | Nowhere, Nowhere => true
  | _, _ => false
  end.
Definition val_le (a b : aval) : bool :=
  implb (v_null a) (v_null b) && tsub (v_ty a) (v_ty b)
  && (aloc_eqb (v_loc a) (v_loc b) || aloc_eqb (v_loc b) Nowhere || tsub (v_ty a) 0%N).
Definition slot_le (a b : option aval) : bool :=
  match a, b with _, None => true | Some a, Some b => val_le a b | None, Some _ => false end.

Fixpoint all2 {X Y} (f : X -> Y -> bool) (a : list X) (b : list Y) : bool :=
  match a, b with
  | [], [] => true
  | x :: a, y :: b => f x y && all2 f a b
  | _, _ => false
  end.

(** [a] = ones of [X], then the rest *)
Fixpoint split_ones (X : list tset) (a : aseq) : option aseq :=
  match X, a with
  | [], _ => Some a
  | t :: X, One t' :: a => if tsub t' t then split_ones X a else None
  | _, _ => None
  end.

Fixpoint seq_le (n : nat) (a b : aseq) : bool :=
  match n with
  | 0 => false
  | S n =>
      match b with
      | [] => match a with [] => true | _ => false end
      | One t' :: b' =>
          match a with One t :: a' => tsub t t' && seq_le n a' b' | _ => false end
      | Many Y :: b' =>
          seq_le n a b'
          || match a with
             | Many X :: a' => all2 tsub X Y && seq_le n a' b
             | One _ :: _ =>
                 match Y with
                 | [] => false
                 | _ => match split_ones Y a with Some a' => seq_le n a' b | None => false end
                 end
             | [] => false
             end
      end
  end.
Definition seq_fuel := 30.

Definition blk_le (a b : ablk) : bool :=
  Nat.leb (k_sur b) (k_sur a) && implb (k_empty b) (k_empty a) && seq_le seq_fuel (k_seq a) (k_seq b).

Definition prev_le (a b : aprev) : bool :=
  match a, b with
  | ANone, ANone | ANone, AQuiet | ANone, AClean | AQuiet, AQuiet | AQuiet, AClean | AClean, AClean => true
  | ASome k, AClean => k_empty k
  | ASome k, ASome k' => blk_le k k'
  | _, _ => false
  end.
Definition clean (p : aprev) : bool := prev_le p AClean.

Fixpoint exact_len (s : aseq) : option nat :=
  match s with
  | [] => Some 0
  | One _ :: s => option_map S (exact_len s)
  | Many _ :: _ => None
  end.

Definition ops_le (bs : list ablk) (a b : aops) : bool :=
  match a, b with
  | OLen x, OLen y => Nat.eqb x y
  | OTop x, OTop y => Nat.eqb x y
  | OPrev, OPrev => true
  | OLen x, OTop y =>
      match bs with
      | k :: _ :: _ => match exact_len (k_seq k) with Some n => Nat.eqb (x + 1) (n + y) | None => false end
      | _ => false
      end
  | _, _ => false
  end.

Definition ret_le (a b : aret) : bool :=
  match a, b with
  | _, RAny => true
  | RKeep, RKeep => true
  | RVal v, RVal w => val_le v w
  | _, _ => false
  end.

Definition env_le (a b : aenv) : bool :=
  all2 (all2 slot_le) (x_frames a) (x_frames b)
  && all2 blk_le (x_blocks a) (x_blocks b)
  && prev_le (x_prev a) (x_prev b)
  && ops_le (x_blocks a) (x_ops a) (x_ops b)
  && ret_le (x_ret a) (x_ret b) && ret_le (x_res a) (x_res b).

(** ** Joins: guesses, checked with the order *)
Definition val_join (a b : aval) : aval :=
  mkav (v_null a || v_null b) (tunion (v_ty a) (v_ty b))
       (if aloc_eqb (v_loc a) (v_loc b) then v_loc a
        else if tsub (v_ty a) 0%N then v_loc b          (* always NULL *)
        else if tsub (v_ty b) 0%N then v_loc a else Nowhere).
Definition slot_join (a b : option aval) : option aval :=
  match a, b with Some a, Some b => Some (val_join a b) | _, _ => None end.
Fixpoint zip {X Y} (f : X -> X -> Y) (a b : list X) : list Y :=
  match a, b with x :: a, y :: b => f x y :: zip f a b | _, _ => [] end.

Definition cons_item (i : item) (s : aseq) : aseq :=
  match i, s with
  | Many X, Many Y :: s' => if all2 tmeet X Y then Many (zip tunion X Y) :: s' else i :: s
  | _, _ => i :: s
  end.
Fixpoint ones (s : aseq) : list tset :=
  match s with One t :: s => t :: ones s | _ => [] end.
Definition starify (s : aseq) : aseq :=
  match ones s, skipn (List.length (ones s)) s with
  | [], r => r
  | X, [] => [Many X]
  | X, Many Y :: r => if Nat.eqb (List.length X) (List.length Y) then Many (zip tunion X Y) :: r else s
  | _, _ => s
  end.
Definition cat_items (p : list item) (s : aseq) : aseq := fold_right cons_item s p.
Fixpoint seq_join (a b : aseq) : aseq :=
  match a, b with
  | One t :: a', One t' :: b' => cons_item (One (tunion t t')) (seq_join a' b')
  | Many X :: a', Many Y :: b' =>
      if Nat.eqb (List.length X) (List.length Y) then cons_item (Many (zip tunion X Y)) (seq_join a' b')
      else a
  | [], r | r, [] => starify r
  | One _ :: _, Many X :: b' =>
      match starify a with Many Y :: a' => cons_item (Many (zip tunion X Y)) (starify a' ++ b') | _ => a end
  | Many X :: a', One _ :: _ =>
      match starify b with Many Y :: b' => cons_item (Many (zip tunion X Y)) (starify b' ++ a') | _ => a end
  end.

Definition blk_join (a b : ablk) : ablk :=
  mkab (Nat.min (k_sur a) (k_sur b)) (k_empty a && k_empty b) (seq_join (k_seq a) (k_seq b)).
Definition prev_join (a b : aprev) : aprev :=
  match a, b with
  | ANone, ANone => ANone
  | ANone, AQuiet | AQuiet, ANone | AQuiet, AQuiet => AQuiet
  | ASome k, ASome k' => if clean a && clean b then AClean else ASome (blk_join k k')
  | _, _ => AClean
  end.
Definition ops_join (a b : aenv) : aops :=
  match x_ops a, x_ops b with
  | OLen x, OLen y =>
      if Nat.eqb x y then OLen x
      else match x_blocks a with
           | k :: _ :: _ => match exact_len (k_seq k) with Some n => OTop (x + 1 - n) | None => OLen x end
           | _ => OLen x
           end
  | OLen _, o => o
  | o, _ => o
  end.
Definition ret_join (a b : aret) : aret :=
  match a, b with
  | RKeep, RKeep => RKeep
  | RVal v, RVal w => RVal (val_join v w)
  | _, _ => RAny
  end.
Definition env_join (a b : aenv) : aenv :=
  mkae (zip (zip slot_join) (x_frames a) (x_frames b)) (zip blk_join (x_blocks a) (x_blocks b))
       (prev_join (x_prev a) (x_prev b)) (ops_join a b)
       (ret_join (x_ret a) (x_ret b)) (ret_join (x_res a) (x_res b)).

Inductive ares : Set := ABot | AErr | AOk (x : aenv).

Definition res_join (a b : ares) : ares :=
  match a, b with
  | AErr, _ | _, AErr => AErr
  | ABot, r | r, ABot => r
  | AOk x, AOk y =>
      let j := env_join x y in
      if env_le x j && env_le y j then AOk j else AErr
  end.

(** ** Actions *)
Definition map_loc (f : aloc -> aloc) (v : aval) : aval := mkav (v_null v) (v_ty v) (f (v_loc v)).
Definition map_ret (f : aloc -> aloc) (r : aret) : aret :=
  match r with RVal v => RVal (map_loc f v) | _ => r end.
(** all values that the environment knows *)
Definition map_locs (f : aloc -> aloc) (x : aenv) : aenv :=
  mkae (map (map (option_map (map_loc f))) (x_frames x)) (x_blocks x) (x_prev x) (x_ops x)
       (map_ret f (x_ret x)) (map_ret f (x_res x)).
Definition forget (l : aloc) : aloc := match l with InPrev => Nowhere | _ => l end.
Definition move (d : nat) (to : aloc) (l : aloc) : aloc :=
  match l with InPrev => Nowhere | In_ d' => if Nat.eqb d' d then to else l | _ => l end.

Definition top_idx (x : aenv) : nat := List.length (x_blocks x) - 1.

Definition a_start (x : aenv) : option aenv :=
  match x_ops x with
  | OLen _ =>
      if clean (x_prev x) then
        let y := map_locs forget x in
        Some (mkae (x_frames y) (fresh_blk :: x_blocks y) ANone (x_ops y) (x_ret y) (x_res y))
      else None
  | _ => None
  end.

Definition close_ops (o : aops) : option aops :=
  match o with OLen k => Some (OLen k) | OTop 0 => Some OPrev | _ => None end.

(** [new]: blocks that replace the one closed *)
Definition a_close (new : list ablk) (x : aenv) : option aenv :=
  match x_blocks x, close_ops (x_ops x) with
  | k :: k2 :: ks, Some o =>
      if clean (x_prev x) then
        let y := map_locs (move (top_idx x) InPrev) x in
        Some (mkae (x_frames y) (new ++ k2 :: ks) (ASome k) o (x_ret y) (x_res y))
      else None
  | _, _ => None
  end.

Definition a_merge (x : aenv) : option aenv :=
  match x_blocks x, x_ops x with
  | k :: k2 :: ks, OLen n =>
      match k_seq k with
      | [] =>
          if clean (x_prev x) then
            let y := map_locs (move (top_idx x) (In_ (top_idx x - 1))) x in
            Some (mkae (x_frames y)
                       (mkab (k_sur k2 + k_sur k) (k_empty k2 && k_empty k) (k_seq k2) :: ks)
                       (ASome fresh_blk) (OLen n) (x_ret y) (x_res y))
          else None
      | _ => None
      end
  | _, _ => None
  end.

Definition a_arg (a : arg) (x : aenv) : option aval :=
  match a with
  | ANull => Some null_val
  | AVar k => match x_frames x with
              | f :: _ => match nth_error f k with Some (Some v) => Some v | _ => None end
              | [] => None
              end
  end.
Fixpoint a_args (l : list arg) (x : aenv) : option (list aval) :=
  match l with
  | [] => Some []
  | a :: l => match a_arg a x, a_args l x with Some v, Some vs => Some (v :: vs) | _, _ => None end
  end.
Definition a_put (k : nat) (v : aval) (x : aenv) : option aenv :=
  match x_frames x with
  | f :: fs => match upd f k (Some v) with
               | Some f' => Some (mkae (f' :: fs) (x_blocks x) (x_prev x) (x_ops x) (x_ret x) (x_res x))
               | None => None
               end
  | [] => None
  end.

(** arguments of a constructor *)
Inductive apar : Set :=
| APN (v : aval)
| APL (full : bool) (s : aseq)     (* (part of) the sequence *)
| APB (b : bool)
| APD (d : dir)
| APO                              (* an operator *)
| APC                              (* one operator fewer than the sequence has elements *)
| APS.

Definition seq_types (s : aseq) : tset :=
  fold_right (fun i acc => match i with One t => tunion t acc | Many X => fold_right tunion acc X end) 0%N s.
Definition item_types (i : item) : tset := match i with One t => t | Many X => fold_right tunion 0%N X end.

(** all types in [s] are instances of [t], or none is *)
Definition all_are (v : bool) (s : tset) (t : asttype) : bool :=
  if v then tsub s (below t) else negb (tmeet s (below t)).
Fixpoint seq_split (v : bool) (t : asttype) (s : aseq) : aseq * aseq :=
  match s with
  | i :: s' => if all_are v (item_types i) t then let (a, b) := seq_split v t s' in (i :: a, b) else ([], s)
  | [] => ([], [])
  end.
Fixpoint min_len (s : aseq) : nat :=
  match s with One _ :: s => S (min_len s) | Many _ :: s => min_len s | [] => 0 end.
(** the parity of the length *)
Fixpoint seq_even (s : aseq) : option bool :=
  match s with
  | [] => Some true
  | One _ :: s => option_map negb (seq_even s)
  | Many X :: s => if Nat.even (List.length X) then seq_even s else None
  end.

Definition a_par (k : ablk) (args : list aval) (ops : aops) (p : bparam) : option (apar * aops) :=
  match p with
  | BArg i => match nth_error args i with Some v => Some (APN v, ops) | None => None end
  | BNull => Some (APN null_val, ops)
  | BLitB b => Some (APB b, ops)
  | BLitD d => Some (APD d, ops)
  | BSeq => Some (APL true (k_seq k), ops)
  | BSeqWhile v t =>
      let (a, b) := seq_split v t (k_seq k) in
      if all_are (negb v) (seq_types b) t then Some (APL false a, ops) else None
  | BSeqAfter v t =>
      let (a, b) := seq_split v t (k_seq k) in
      if all_are (negb v) (seq_types b) t then Some (APL false b, ops) else None
  | BSeqPairs => Some (APL false [Many [seq_types (k_seq k)]], ops)
  | BSeqEven => match seq_even (k_seq k) with Some true => Some (APL true (k_seq k), ops) | _ => None end
  | BOpPop => match ops with OLen (S n) => Some (APO, OLen n) | _ => None end
  | BChainOps =>
      match ops with
      | OPrev => if Nat.leb 2 (min_len (k_seq k)) then Some (APC, OLen 0) else None
      | _ => None
      end
  | BStrbuf | BBlock | BBlockTrim => Some (APS, ops)
  end.
Fixpoint a_pars (k : ablk) (args : list aval) (ops : aops) (l : list bparam) : option (list apar * aops) :=
  match l with
  | [] => Some ([], ops)
  | p :: l =>
      match a_par k args ops p with
      | None => None
      | Some (x, o1) =>
          match a_pars k args o1 l with Some (xs, o2) => Some (x :: xs, o2) | None => None end
      end
  end.

Definition akind (p : apar) : pkind :=
  match p with
  | APN _ => KNode | APL _ _ => KList | APB _ => KBool | APD _ => KDir | APO => KOper | APC => KOpers | APS => KStr
  end.

(** alternation of [t1] and [t2] from [b] on; the phase at the end *)
Fixpoint phase1 (t1 t2 : asttype) (b : bool) (X : list tset) : option bool :=
  match X with
  | [] => Some b
  | t :: X => if tsub t (below (if b then t1 else t2)) then phase1 t1 t2 (negb b) X else None
  end.
Fixpoint phase (t1 t2 : asttype) (b : bool) (s : aseq) : option bool :=
  match s with
  | [] => Some b
  | One t :: s => match phase1 t1 t2 b [t] with Some b' => phase t1 t2 b' s | None => None end
  | Many X :: s =>
      match phase1 t1 t2 b X with
      | Some b' => if Bool.eqb b b' then phase t1 t2 b s else None
      | None => None
      end
  end.

Definition is_val (v : aval) (t : asttype) : bool := tsub (v_ty v) (below t).
Definition child_val (v : aval) : bool := aloc_eqb (v_loc v) InPrev || tsub (v_ty v) 0%N.
Definition a_check (ps : list apar) (r : req) : bool :=
  match r with
  | RqChild k t =>
      match nth_error ps k with
      | Some (APN v) => negb (v_null v) && is_val v t && child_val v | _ => false end
  | RqChildOpt k t =>
      match nth_error ps k with Some (APN v) => is_val v t && child_val v | _ => false end
  | RqChildAll k t =>
      match nth_error ps k with Some (APL _ s) => tsub (seq_types s) (below t) | _ => false end
  | RqChildAllHalf k t =>
      match nth_error ps k with Some (APL _ s) => tsub (seq_types s) (below t) | _ => false end
  | RqType k t =>
      match nth_error ps k with Some (APN v) => negb (v_null v) && is_val v t | _ => false end
  | RqTypeAll k t =>
      match nth_error ps k with Some (APL _ s) => tsub (seq_types s) (below t) | _ => false end
  | RqContains k =>
      match nth_error ps k with Some (APN v) => negb (v_null v) && child_val v | _ => false end
  | RqContainsOpt k =>
      match nth_error ps k with Some (APN v) => child_val v | _ => false end
  | RqNonEmpty k =>
      match nth_error ps k with Some (APL _ s) => Nat.ltb 0 (min_len s) | _ => false end
  | RqFlagOrNonEmpty b k =>
      match nth_error ps b, nth_error ps k with
      | Some (APB true), Some (APL _ _) => true
      | Some (APB false), Some (APL _ s) => Nat.ltb 0 (min_len s)
      | _, _ => false
      end
  | RqOper k => match nth_error ps k with Some APO => true | _ => false end
  | RqEither k t1 t2 =>
      match nth_error ps k with
      | Some (APN v) => negb (v_null v) && tsub (v_ty v) (tunion (below t1) (below t2)) | _ => false end
  | RqEitherOpt k t1 t2 =>
      match nth_error ps k with
      | Some (APN v) => tsub (v_ty v) (tunion (below t1) (below t2)) | _ => false end
  | RqPairs k t1 t2 =>
      match nth_error ps k with
      | Some (APL _ s) => match phase t1 t2 true s with Some true => true | _ => false end
      | _ => false
      end
  | RqOdd k =>
      match nth_error ps k with
      | Some (APL _ s) => match seq_even s with Some false => true | _ => false end
      | _ => false
      end
  | RqAlternate k t1 t2 =>
      match nth_error ps k with
      | Some (APL _ s) => match phase t1 t2 true s with Some _ => true | _ => false end
      | _ => false
      end
  | RqChain o k =>
      match nth_error ps o, nth_error ps k with
      | Some APC, Some (APL true _) => true
      | _, _ => false
      end
  end.

(** the documented parameters *)
Definition below_any (ts : list asttype) : tset := fold_right (fun t acc => tunion (below t) acc) 0%N ts.
Definition a_doc (d : dparam) (p : apar) : bool :=
  match d, p with
  | DOne ts, APN v => negb (v_null v) && tsub (v_ty v) (below_any ts) && child_val v
  | DOpt ts, APN v => tsub (v_ty v) (below_any ts) && child_val v
  | DAll ts, APL _ s => tsub (seq_types s) (below_any ts)
  | DList, APL _ _ => true
  | DPairs t1 t2, APL _ s => match phase t1 t2 true s with Some _ => true | None => false end
  | DAlternate t1 t2, APL _ s =>
      match seq_even s, phase t1 t2 true s with Some false, Some _ => true | _, _ => false end
  | DOp, APO | DOps, APC => true
  | DFree, (APB _ | APD _ | APS) => true
  | _, _ => false
  end.
Definition differs (t : asttype) (i : nat) : bool :=
  existsb (fun q => N.eqb (tnum (fst q)) (tnum t) && Nat.eqb (snd q) i) parser_differs.
Fixpoint a_docs (t : asttype) (i : nat) (ds : list dparam) (ps : list apar) : bool :=
  match ds, ps with
  | [], [] => true
  | d :: ds, p :: ps => (a_doc d p || differs t i) && a_docs t (S i) ds ps
  | _, _ => false
  end.
(** nodes are children *)
Definition own_par (p : apar) : bool := match p with APN v => child_val v | _ => true end.

(** [strict]: a constructor without children is only called when the block has
    none (parser.c:3085) *)
Definition a_build (strict : bool) (c : ctor) (args : list aval) (x : aenv) : option (aval * aenv) :=
  match x_prev x, x_blocks x with
  | ASome k, q :: qs =>
      let (ty, bps) := build_call c in
      match a_pars k args (x_ops x) bps, ctor_kinds ty with
      | Some (ps, o), Some ks =>
          if negb (terminal ty && strict && negb (k_empty k))
             && kinds_eqb (map akind ps) ks && forallb (a_check ps) (ctor_reqs ty)
             && match o with OPrev => false | _ => true end
             && forallb own_par ps
             && match doc_params ty with Some ds => a_docs ty 0 ds ps | None => false end
          then
            let y := map_locs forget x in
            Some (mkav false (tone ty) (In_ (top_idx x)),
                  mkae (x_frames y) (mkab (S (k_sur q)) false (k_seq q) :: qs) ANone o (x_ret y) (x_res y))
          else None
      | _, _ => None
      end
  | _, _ => None
  end.

Definition a_rhs (strict : bool) (r : rhs) (x : aenv) : option (aval * aenv) :=
  match r with
  | RArg a => match a_arg a x with Some v => Some (v, x) | None => None end
  | RMk c l => match a_args l x with Some vs => a_build strict c vs x | None => None end
  end.

Definition set_xret (x : aenv) r := mkae (x_frames x) (x_blocks x) (x_prev x) (x_ops x) r (x_res x).
Definition set_xres (x : aenv) r := mkae (x_frames x) (x_blocks x) (x_prev x) (x_ops x) (x_ret x) r.
Definition set_xops (x : aenv) o := mkae (x_frames x) (x_blocks x) (x_prev x) o (x_ret x) (x_res x).
Definition set_xblocks (x : aenv) b := mkae (x_frames x) b (x_prev x) (x_ops x) (x_ret x) (x_res x).

Definition of_res (r : ares) : option aenv := match r with AOk x => Some x | _ => None end.

Fixpoint a_stmt (strict : bool) (s : stmt) (x : aenv) : option aenv :=
  match s with
  | SFinished | SStrReset | SStrAppend _ | SEof => Some x
  | SStrBlock => match x_prev x with ASome _ => Some x | _ => None end
  | SResult a => match a_arg a x with Some v => Some (set_xres x (RVal v)) | None => None end
  | SSeqAdd a =>
      match a_arg a x, x_blocks x with
      | Some v, k :: ks =>
          if negb (v_null v) && aloc_eqb (v_loc v) (In_ (top_idx x)) && Nat.ltb 0 (k_sur k) then
            match match x_ops x with
                  | OTop (S n) => Some (OTop n) | OTop 0 => None | o => Some o
                  end with
            | Some o => Some (set_xops (set_xblocks x
                          (mkab (k_sur k - 1) (k_empty k) (k_seq k ++ [One (v_ty v)]) :: ks)) o)
            | None => None
            end
          else None
      | _, _ => None
      end
  | SOpPush _ =>
      match x_ops x with
      | OLen k => Some (set_xops x (OLen (S k)))
      | OTop k => Some (set_xops x (OTop (S k)))
      | OPrev => None
      end
  | SDrop r => match a_rhs strict r x with Some (_, y) => Some y | None => None end
  | SLet LRet r => match a_rhs strict r x with Some (v, y) => Some (set_xret y (RVal v)) | None => None end
  | SLet (LVar k) r => match a_rhs strict r x with Some (v, y) => a_put k v y | None => None end
  | SIfNotIdent a s =>
      match a_arg a x, a_stmt strict s x with
      | Some _, Some y => of_res (res_join (AOk x) (AOk y))
      | _, _ => None
      end
  end.

Fixpoint a_stmts (strict : bool) (l : list stmt) (x : aenv) : option aenv :=
  match l with
  | [] => Some x
  | s :: l => match a_stmt strict s x with Some y => a_stmts strict l y | None => None end
  end.

Definition a_action (strict : bool) (t : action) (x : aenv) : option aenv :=
  match t with
  | TPush n => Some (mkae (repeat None n :: x_frames x) (x_blocks x) (x_prev x) (x_ops x) (x_ret x) (x_res x))
  | TPop _ => match x_frames x with
              | _ :: fs => Some (mkae fs (x_blocks x) (x_prev x) (x_ops x) (x_ret x) (x_res x))
              | [] => None
              end
  | TSet k => match x_ret x with RVal v => a_put k v x | _ => None end
  | TBlockStart => a_start x
  | TBlockEnd => a_close [] x
  | TBlockReplace => a_close [fresh_blk] x
  | TBlockMerge => a_merge x
  | TDo l => a_stmts strict l x
  end.

Definition of_act (o : option aenv) : ares := match o with Some x => AOk x | None => AErr end.

(** ** Calls of rules *)
(** [m]: the state on return of a rule entered in [entry_env] *)
Definition shift_loc (d : nat) (l : aloc) : aloc :=
  match l with In_ 0 => In_ d | In_ _ => Nowhere | l => l end.
Definition a_call (m : aenv) (x : aenv) : option aenv :=
  match x_frames m, x_blocks m, x_blocks x, x_ops m with
  | [], [k], q :: qs, OLen n =>
      if clean (x_prev x)
         && match x_ops x with
            | OLen _ => true
            | OTop _ => match k_seq k with [] => true | _ => false end
            | OPrev => false
            end
      then
        let y := map_locs forget x in
        let ret o r := match r with RKeep => o | RVal v => RVal (map_loc (shift_loc (top_idx x)) v) | RAny => RAny end in
        Some (mkae (x_frames y)
                   (mkab (k_sur q + k_sur k) (k_empty q && k_empty k) (k_seq q ++ k_seq k) :: qs)
                   (match x_prev m, x_prev x with
                    | AQuiet, ANone => ANone | AQuiet, AQuiet => AQuiet | AQuiet, _ => AClean | p, _ => p
                    end)
                   (match x_ops x with OLen j => OLen (n + j) | OTop j => OTop (n + j) | OPrev => OPrev end)
                   (ret (x_ret y) (x_ret m)) (ret (x_res y) (x_res m)))
      else None
  | _, _, _, _ => None
  end.

(** ** Expressions *)
Section Exec.
Variable strict : bool.                      (* see [a_build] *)
Variable G : rule -> cexp.                   (* the grammar: [CG], or what is left of it *)
Variable inl : rule -> bool.                 (* rules that are expanded *)
Variable tab : rule -> option aenv.          (* the others; [None]: cannot match *)

Fixpoint a_exec (n : nat) (e : cexp) (x : aenv) : ares :=
  match n with
  | 0 => AErr
  | S n =>
      match e with
      | PDot | PChar _ | PStr _ | PClass _ | PAnd _ | PNot _ => AOk x
      | PRule r =>
          if inl r then a_exec n (G r) x
          else match tab r with
               | None => ABot
               | Some m => of_act (a_call m x)
               end
      | PSeq e1 e2 =>
          match a_exec n e1 x with AOk y => a_exec n e2 y | r => r end
      | PAlt e1 e2 => res_join (a_exec n e1 x) (a_exec n e2 x)
      | PQuery e => res_join (AOk x) (a_exec n e x)
      | PStar e => a_star n 5 e x
      | PPlus e => match a_exec n e x with AOk y => a_star n 5 e y | r => r end
      | PAct a => of_act (a_action strict a x)
      | PPred (QDo a) => of_act (a_action strict a x)
      | PPred (QConst false) => ABot
      | PPred _ => AOk x
      | PErr e _ => a_exec n e x
      end
  end
with a_star (n k : nat) (e : cexp) (x : aenv) : ares :=
  match n with
  | 0 => AErr
  | S n =>
      match k with
      | 0 => AErr
      | S k =>
          match a_exec n e x with
          | ABot => AOk x
          | AErr => AErr
          | AOk y =>
              if env_le y x then AOk x
              else let j := env_join x y in
                   if env_le x j then a_star n k e j else AErr
          end
      end
  end.
End Exec.

(** ** The table *)
Definition a_fuel := 200.
Definition inline (r : rule) : bool :=
  match r with
  | R__block_start_ | R__block_end_ | R__block_replace_ | R__block_merge_ => true
  | _ => false
  end.
Definition lookup (l : list (option aenv)) (r : rule) : option aenv := nth (rule_idx r) l None.

Definition round (strict : bool) (G : rule -> cexp) (l : list (option aenv)) : list (option aenv) :=
  map (fun r =>
    match a_exec strict G inline (lookup l) a_fuel (G r) entry_env with
    | AOk x => match lookup l r with
               | Some y => match res_join (AOk y) (AOk x) with AOk j => Some j | _ => Some x end
               | None => Some x
               end
    | _ => lookup l r
    end) all_rules.
Fixpoint rounds (n : nat) (strict : bool) (G : rule -> cexp) (l : list (option aenv)) :=
  match n with 0 => l | S n => rounds n strict G (round strict G l) end.

(** the rules whose entry is not confirmed *)
Definition bad_rule (strict : bool) (G : rule -> cexp) (l : list (option aenv)) (r : rule) : bool :=
  negb (inline r ||
    match lookup l r, a_exec strict G inline (lookup l) a_fuel (G r) entry_env with
    | Some m, AOk x => env_le x m
    | _, ABot => true
    | _, _ => false
    end).
