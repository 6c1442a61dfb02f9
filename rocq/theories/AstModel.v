(** * AST nodes: construction, type tests, ordinals, depth and cloning

    Models lib/src/ast.c, astnode.h and the constructors and clone functions
    of lib/src/ast_*.c through the tables of AstTypes.  Memory allocation is
    assumed to succeed. *)
From Verif Require Import Peg QuickModel CypherSyntax AstTypes.

(** cypher_input_range (cypher-parser.h:96-101) *)
Record range := mkrange { r_start : position; r_end : position }.

(** The structure fields of a node.  A pointer to another node is the identity
    of that node; [None] is NULL. *)
Inductive field : Set :=
| FNode (o : option nat)
| FList (l : list nat)
| FBool (b : bool)
| FDir (d : dir)
| FOper (o : option oper)
| FOpers (l : list oper)
| FStr (s : bytes).

(** struct cypher_astnode (astnode.h:24-33) and the structure embedding it.
    [id] stands for the node's address. *)
Inductive node : Set :=
  Node (id : nat) (ty : asttype) (rng : range) (flds : list field) (kids : list node)
       (ordinal : nat).

Definition nid (n : node) := match n with Node i _ _ _ _ _ => i end.
Definition nty (n : node) := match n with Node _ t _ _ _ _ => t end.
Definition nrng (n : node) := match n with Node _ _ r _ _ _ => r end.
Definition nflds (n : node) := match n with Node _ _ _ f _ _ => f end.
Definition nkids (n : node) := match n with Node _ _ _ _ k _ => k end.
Definition nord (n : node) := match n with Node _ _ _ _ _ o => o end.

(** ast.c:404-419 cypher_astnode_vt_instanceof, with a bound on the depth of the
    hierarchy *)
Fixpoint vt_instanceof (n : nat) (v : asttype) (target : option asttype) : bool :=
  match target with Some w => type_eqb v w | None => false end ||
  match n with
  | 0 => false
  | S n => existsb (fun p => vt_instanceof n p target) (vt_parents v)
  end.

(** The deepest chain of parents is shorter than this (AstProofs.vt_depth_ok). *)
Definition vt_depth : nat := 8.

(** ast.c:422-434 cypher_astnode_instanceof on a node of type [t].  [None]: NULL
    is dereferenced, as the type of the node has no virtual table. *)
Definition instanceof_ty (t target : asttype) : option bool :=
  match vts t with
  | None => match vts target with None => Some true | Some _ => None end
  | Some v => Some (vt_instanceof vt_depth v (vts target))
  end.

Definition is_a (n : node) (target : asttype) : bool :=
  match instanceof_ty (nty n) target with Some b => b | None => false end.

(** ast.c:437-442 cypher_astnode_typestr; outer [None]: NULL dereference *)
Definition typestr (t : asttype) : option (option bytes) := option_map vt_name (vts t).

(** Actual parameters of a constructor *)
Inductive aparam : Set :=
| PN (o : option node)
| PL (l : list node)
| PB (b : bool)
| PD (d : dir)
| PO (o : option oper)
| POs (l : list oper)
| PS (s : bytes).

Definition kind_of (p : aparam) : pkind :=
  match p with
  | PN _ => KNode | PL _ => KList | PB _ => KBool | PD _ => KDir
  | PO _ => KOper | POs _ => KOpers | PS _ => KStr
  end.

(** The field a parameter is stored in *)
Definition to_field (p : aparam) : field :=
  match p with
  | PN o => FNode (option_map nid o)
  | PL l => FList (map nid l)
  | PB b => FBool b
  | PD d => FDir d
  | PO o => FOper o
  | POs l => FOpers l
  | PS s => FStr s
  end.

(** astnode.h:83-90 REQUIRE_CONTAINS *)
Definition contains (kids : list node) (x : node) : bool :=
  existsb (fun k => Nat.eqb (nid k) (nid x)) kids.

(** astnode.h:67-80 REQUIRE_TYPE, REQUIRE_TYPE_OPTIONAL, REQUIRE_TYPE_ALL *)
Definition all_a (l : list node) (t : asttype) : bool := forallb (fun x => is_a x t) l.

Fixpoint pairs_a (l : list node) (t1 t2 : asttype) : bool :=
  match l with
  | [] => true
  | [_] => false                 (* not an array of 2*nentries pointers *)
  | x :: y :: l => is_a x t1 && is_a y t2 && pairs_a l t1 t2
  end.

Fixpoint alternate (l : list node) (kids : list node) (t1 t2 : asttype) : bool :=
  match l with
  | [] => true
  | x :: l => is_a x t1 && contains kids x && alternate l kids t2 t1
  end.

(** One REQUIRE* check.  REQUIRE_CONTAINS_ALL (astnode.h:99-106) starts its loop
    at j = size, so it only compares the two sizes. *)
Definition check (ps : list aparam) (kids : list node) (r : req) : bool :=
  match r with
  | RqChild k t =>
      match nth_error ps k with Some (PN (Some x)) => is_a x t && contains kids x | _ => false end
  | RqChildOpt k t =>
      match nth_error ps k with
      | Some (PN (Some x)) => is_a x t && contains kids x
      | Some (PN None) => true
      | _ => false
      end
  | RqChildAll k t =>
      match nth_error ps k with
      | Some (PL l) => all_a l t && Nat.leb (List.length l) (List.length kids)
      | _ => false
      end
  | RqChildAllHalf k t =>
      match nth_error ps k with
      | Some (PL l) =>
          let h := Nat.div2 (List.length l) in
          all_a (firstn h l) t && Nat.leb h (List.length kids)
      | _ => false
      end
  | RqType k t => match nth_error ps k with Some (PN (Some x)) => is_a x t | _ => false end
  | RqTypeAll k t => match nth_error ps k with Some (PL l) => all_a l t | _ => false end
  | RqContains k => match nth_error ps k with Some (PN (Some x)) => contains kids x | _ => false end
  | RqContainsOpt k =>
      match nth_error ps k with
      | Some (PN (Some x)) => contains kids x
      | Some (PN None) => true
      | _ => false
      end
  | RqNonEmpty k => match nth_error ps k with Some (PL (_ :: _)) => true | _ => false end
  | RqFlagOrNonEmpty b k =>
      match nth_error ps b, nth_error ps k with
      | Some (PB true), Some (PL _) => true
      | Some (PB false), Some (PL (_ :: _)) => true
      | _, _ => false
      end
  | RqOper k => match nth_error ps k with Some (PO (Some _)) => true | _ => false end
  | RqEither k t1 t2 =>
      match nth_error ps k with Some (PN (Some x)) => is_a x t1 || is_a x t2 | _ => false end
  | RqEitherOpt k t1 t2 =>
      match nth_error ps k with
      | Some (PN (Some x)) => is_a x t1 || is_a x t2
      | Some (PN None) => true
      | _ => false
      end
  | RqPairs k t1 t2 => match nth_error ps k with Some (PL l) => pairs_a l t1 t2 | _ => false end
  | RqOdd k => match nth_error ps k with Some (PL l) => Nat.odd (List.length l) | _ => false end
  | RqAlternate k t1 t2 =>
      match nth_error ps k with Some (PL l) => alternate l kids t1 t2 | _ => false end
  | RqChain o k =>
      match nth_error ps o, nth_error ps k with
      | Some (POs (x :: ops)), Some (PL l) => Nat.eqb (List.length l) (S (List.length (x :: ops)))
      | _, _ => false
      end
  end.

Definition pkind_eqb (a b : pkind) : bool :=
  match a, b with
  | KNode, KNode | KList, KList | KBool, KBool | KDir, KDir | KOper, KOper
  | KOpers, KOpers | KStr, KStr => true
  | _, _ => false
  end.

Fixpoint kinds_eqb (a b : list pkind) : bool :=
  match a, b with
  | [], [] => true
  | x :: a, y :: b => pkind_eqb x y && kinds_eqb a b
  | _, _ => false
  end.

(** The constructor cypher_ast_* of type [t].  [None]: a REQUIRE fails (or the
    call is ill-typed, which C excludes).  ast.c:888-912 cypher_astnode_init;
    the node is allocated with calloc, so its ordinal is 0. *)
Definition construct (id : nat) (t : asttype) (ps : list aparam) (kids : list node)
    (rng : range) : option node :=
  match ctor_kinds t with
  | None => None
  | Some ks =>
      if kinds_eqb (map kind_of ps) ks && forallb (check ps kids) (ctor_reqs t)
      then Some (Node id t rng (map to_field ps) kids 0)
      else None
  end.

(** ast.c:560-572 cypher_ast_set_ordinals *)
Fixpoint set_ordinals (t : node) (n : nat) : node * nat :=
  match t with
  | Node i ty r f ks _ =>
      let fix go (ks : list node) (m : nat) : list node * nat :=
        match ks with
        | [] => ([], m)
        | k :: ks =>
            let (k', m1) := set_ordinals k m in
            let (ks', m2) := go ks m1 in
            (k' :: ks', m2)
        end in
      let (ks', m) := go ks (S n) in
      (Node i ty r f ks' n, m)
  end.

(** segment.c:59-64: the same over all roots, in order *)
Fixpoint set_ordinals_all (ts : list node) (n : nat) : list node * nat :=
  match ts with
  | [] => ([], n)
  | t :: ts =>
      let (t', m) := set_ordinals t n in
      let (ts', m') := set_ordinals_all ts m in
      (t' :: ts', m')
  end.

(** ast.c:549-557 cypher_ast_depth *)
Fixpoint depth (t : node) : nat :=
  match t with Node _ _ _ _ ks _ => S (fold_right Nat.max 0 (map depth ks)) end.

(** Number of nodes of a tree (not a function of the library) *)
Fixpoint size (t : node) : nat :=
  match t with Node _ _ _ _ ks _ => S (fold_right Nat.add 0 (map size ks)) end.

(** ** Cloning *)

(** astnode.h:122-130 child_index.  The loop does not advance its counter: if
    there are children and the first is not the one sought, it never ends.
    With no children the assertion fails. *)
Inductive ci_out : Set := CiFound (i : nat) | CiHang | CiAssert.
Definition child_index (kids : list node) (child : option nat) : ci_out :=
  match kids with
  | [] => CiAssert
  | k :: _ => match child with
              | Some c => if Nat.eqb (nid k) c then CiFound 0 else CiHang
              | None => CiHang
              end
  end.

Inductive clone_out (X : Type) : Type :=
| ClOk (x : X)
| ClHang            (* child_index does not return *)
| ClFail            (* assertion or REQUIRE fails *)
| ClUb.             (* reads outside an array *)
Arguments ClOk {X}. Arguments ClHang {X}. Arguments ClFail {X}. Arguments ClUb {X}.

(** [children[child_index(self, x)]]; [kids]: the children of the node being
    cloned, [ckids]: their clones *)
Definition ref_clone (kids ckids : list node) (x : option nat) : clone_out node :=
  match child_index kids x with
  | CiHang => ClHang
  | CiAssert => ClFail
  | CiFound i => match nth_error ckids i with Some c => ClOk c | None => ClUb end
  end.

Fixpoint list_clone (kids ckids : list node) (l : list nat) : clone_out (list node) :=
  match l with
  | [] => ClOk []
  | x :: l =>
      match ref_clone kids ckids (Some x) with
      | ClOk c => match list_clone kids ckids l with ClOk cs => ClOk (c :: cs) | e => e end
      | ClHang => ClHang | ClFail => ClFail | ClUb => ClUb
      end
  end.

(** strlen *)
Fixpoint cstr (s : bytes) : bytes :=
  match s with
  | [] => []
  | c :: s => if beq c "000"%char then [] else c :: cstr s
  end.

Definition eval_cparam (flds : list field) (kids ckids : list node) (p : cparam)
    : clone_out aparam :=
  match p with
  | CpField k =>
      match nth_error flds k with
      | Some (FBool b) => ClOk (PB b)
      | Some (FDir d) => ClOk (PD d)
      | Some (FOper o) => ClOk (PO o)
      | Some (FOpers l) => ClOk (POs l)
      | _ => ClUb
      end
  | CpStr k => match nth_error flds k with Some (FStr s) => ClOk (PS (cstr s)) | _ => ClUb end
  | CpChild k =>
      match nth_error flds k with
      | Some (FNode o) =>
          match ref_clone kids ckids o with ClOk c => ClOk (PN (Some c))
          | ClHang => ClHang | ClFail => ClFail | ClUb => ClUb end
      | _ => ClUb
      end
  | CpOpt k =>
      match nth_error flds k with
      | Some (FNode None) => ClOk (PN None)
      | Some (FNode o) =>
          match ref_clone kids ckids o with ClOk c => ClOk (PN (Some c))
          | ClHang => ClHang | ClFail => ClFail | ClUb => ClUb end
      | _ => ClUb
      end
  | CpOptInv k =>
      match nth_error flds k with
      | Some (FNode (Some _)) => ClOk (PN None)
      | Some (FNode None) =>
          match ref_clone kids ckids None with ClOk c => ClOk (PN (Some c))
          | ClHang => ClHang | ClFail => ClFail | ClUb => ClUb end
      | _ => ClUb
      end
  | CpList k =>
      match nth_error flds k with
      | Some (FList l) =>
          match list_clone kids ckids l with ClOk cs => ClOk (PL cs)
          | ClHang => ClHang | ClFail => ClFail | ClUb => ClUb end
      | _ => ClUb
      end
  | CpListHalf k =>
      (* only the first half is copied; the constructor reads the other half *)
      match nth_error flds k with
      | Some (FList l) =>
          match list_clone kids ckids (firstn (Nat.div2 (List.length l)) l) with
          | ClOk cs => if Nat.eqb (Nat.div2 (List.length l)) 0 then ClOk (PL []) else ClUb
          | ClHang => ClHang | ClFail => ClFail | ClUb => ClUb end
      | _ => ClUb
      end
  end.

Fixpoint eval_cparams (flds : list field) (kids ckids : list node) (ps : list cparam)
    : clone_out (list aparam) :=
  match ps with
  | [] => ClOk []
  | p :: ps =>
      match eval_cparam flds kids ckids p with
      | ClOk x => match eval_cparams flds kids ckids ps with ClOk xs => ClOk (x :: xs) | e => e end
      | ClHang => ClHang | ClFail => ClFail | ClUb => ClUb
      end
  end.

(** Types whose constructor takes no children and stores none. *)
Definition terminal (t : asttype) : bool :=
  match ctor_kinds t with
  | Some [KStr] => true
  | Some [] => match t with T_MAP_PROJECTION_ALL_PROPERTIES => false | _ => true end
  | _ => false
  end.

(** ast.c:519-546 cypher_ast_clone and 463-490 cypher_ast_vclone; [n]: the next
    fresh identity *)
Fixpoint clone (n : nat) (t : node) : clone_out (node * nat) :=
  match t with
  | Node _ ty r f ks _ =>
      let fix go (n : nat) (ks : list node) : clone_out (list node * nat) :=
        match ks with
        | [] => ClOk ([], n)
        | k :: ks =>
            match clone n k with
            | ClOk (k', n1) =>
                match go n1 ks with
                | ClOk (ks', n2) => ClOk (k' :: ks', n2)
                | ClHang => ClHang | ClFail => ClFail | ClUb => ClUb
                end
            | ClHang => ClHang | ClFail => ClFail | ClUb => ClUb
            end
        end in
      match go n ks with
      | ClOk (cks, n1) =>
          match clone_call ty with
          | None => ClUb
          | Some (ty', cps) =>
              match eval_cparams f ks cks cps with
              | ClOk ps =>
                  match construct n1 ty' ps (if terminal ty' then [] else cks) r with
                  | Some c => ClOk (c, S n1)
                  | None => ClFail
                  end
              | ClHang => ClHang | ClFail => ClFail | ClUb => ClUb
              end
          end
      | ClHang => ClHang | ClFail => ClFail | ClUb => ClUb
      end
  end.
