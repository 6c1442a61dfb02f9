(** * Deferred actions of the Cypher parser

    What yyDone (leg) does with the thunks of an accepted parse: the actions of
    parser.leg and the functions of parser.c they call (parser.c:816-1012,
    1039-1078, 1102-3109). *)
From Verif Require Import Peg QuickModel ErrModel CypherSyntax AstTypes AstModel CypherBuild.

(** parser.c:113-121 struct block.  [b_top] marks the block that parse_each
    creates (parser.c:611), whose identity parse_one asserts (parser.c:745). *)
Record block := mkblk {
  b_top : bool;
  b_bstart : nat; b_bend : nat;          (* buffer_start, buffer_end *)
  b_rstart : position; b_rend : position;(* range *)
  b_seq : list node;                     (* sequence *)
  b_kids : list node }.                  (* children *)

(** The part of yycontext that actions use.  [a_frames]: leg's value stack, a
    frame per active rule with variables; [None]: the slot has not been written
    since yyPush (in C: whatever the memory holds).  [a_ret]: leg's yy->__
    ([$$]).  [a_fresh]: next node identity.  [a_lost]: nodes freed by
    block_free because they were still in a block's children. *)
Record astate := mkas {
  a_frames : list (list (option (option node)));
  a_ret : option node;
  a_blocks : list block;                 (* last first *)
  a_prev : option block;
  a_ops : list oper;                     (* last first *)
  a_sb : bytes;
  a_result : option node;
  a_eof : bool;
  a_consumed : nat;
  a_errs : list perror;
  a_fresh : nat;
  a_lost : list node }.

Definition set_frames (a : astate) x := mkas x (a_ret a) (a_blocks a) (a_prev a) (a_ops a) (a_sb a) (a_result a) (a_eof a) (a_consumed a) (a_errs a) (a_fresh a) (a_lost a).
Definition set_ret (a : astate) x := mkas (a_frames a) x (a_blocks a) (a_prev a) (a_ops a) (a_sb a) (a_result a) (a_eof a) (a_consumed a) (a_errs a) (a_fresh a) (a_lost a).
Definition set_blocks (a : astate) x := mkas (a_frames a) (a_ret a) x (a_prev a) (a_ops a) (a_sb a) (a_result a) (a_eof a) (a_consumed a) (a_errs a) (a_fresh a) (a_lost a).
Definition set_prev (a : astate) x := mkas (a_frames a) (a_ret a) (a_blocks a) x (a_ops a) (a_sb a) (a_result a) (a_eof a) (a_consumed a) (a_errs a) (a_fresh a) (a_lost a).
Definition set_ops (a : astate) x := mkas (a_frames a) (a_ret a) (a_blocks a) (a_prev a) x (a_sb a) (a_result a) (a_eof a) (a_consumed a) (a_errs a) (a_fresh a) (a_lost a).
Definition set_sb (a : astate) x := mkas (a_frames a) (a_ret a) (a_blocks a) (a_prev a) (a_ops a) x (a_result a) (a_eof a) (a_consumed a) (a_errs a) (a_fresh a) (a_lost a).
Definition set_result (a : astate) x := mkas (a_frames a) (a_ret a) (a_blocks a) (a_prev a) (a_ops a) (a_sb a) x (a_eof a) (a_consumed a) (a_errs a) (a_fresh a) (a_lost a).
Definition set_eof (a : astate) x := mkas (a_frames a) (a_ret a) (a_blocks a) (a_prev a) (a_ops a) (a_sb a) (a_result a) x (a_consumed a) (a_errs a) (a_fresh a) (a_lost a).
Definition set_consumed (a : astate) x := mkas (a_frames a) (a_ret a) (a_blocks a) (a_prev a) (a_ops a) (a_sb a) (a_result a) (a_eof a) x (a_errs a) (a_fresh a) (a_lost a).
Definition set_errs (a : astate) x := mkas (a_frames a) (a_ret a) (a_blocks a) (a_prev a) (a_ops a) (a_sb a) (a_result a) (a_eof a) (a_consumed a) x (a_fresh a) (a_lost a).
Definition set_fresh (a : astate) x := mkas (a_frames a) (a_ret a) (a_blocks a) (a_prev a) (a_ops a) (a_sb a) (a_result a) (a_eof a) (a_consumed a) (a_errs a) x (a_lost a).
Definition set_lost (a : astate) x := mkas (a_frames a) (a_ret a) (a_blocks a) (a_prev a) (a_ops a) (a_sb a) (a_result a) (a_eof a) (a_consumed a) (a_errs a) (a_fresh a) x.

(** [XAssert]: an assertion fails.  [XInvalid]: a REQUIRE of an AST constructor
    fails (util.h: an assertion in a debug build, otherwise the constructor
    returns NULL with EINVAL and the parse fails).  [XUninit]: a value-stack slot
    is read before it is written. *)
Inductive xres (X : Type) : Type := XOk (x : X) | XAssert | XInvalid | XUninit.
Arguments XOk {X}. Arguments XAssert {X}. Arguments XInvalid {X}. Arguments XUninit {X}.

Definition xbind {X Y} (r : xres X) (f : X -> xres Y) : xres Y :=
  match r with XOk x => f x | XAssert => XAssert | XInvalid => XInvalid | XUninit => XUninit end.

Definition of_opt {X} (o : option X) : xres X :=
  match o with Some x => XOk x | None => XAssert end.

(** What does not change while the thunks run: the bytes of this round [e_inp],
    how many of them are in the buffer ([yy->__limit]), the position offset,
    the line starts and [yy->__pos]. *)
Record xenv := mkxe {
  e_inp : bytes; e_limit : nat; e_off : position; e_lines : list nat; e_pos : nat }.

Definition x_position (e : xenv) (p : nat) : xres position :=
  of_opt (input_position (e_off e) (e_lines e) p).

(** parser.c:998-1012 block_free: the children are freed *)
Definition block_free (b : option block) (a : astate) : astate :=
  match b with None => a | Some b => set_lost a (a_lost a ++ b_kids b) end.

(** parser.c:905-923 block_start *)
Definition new_block (p : nat) (ps : position) : block := mkblk false p p ps ps [] [].

(** parser.c:890-902 block_start_action *)
Definition do_block_start (e : xenv) (p : nat) (a : astate) : xres astate :=
  xbind (x_position e p) (fun ps =>
  XOk (set_prev (block_free (a_prev a) (set_blocks a (new_block p ps :: a_blocks a))) None)).

(** parser.c:984-995 block_end and the common part of 927-976 *)
Definition close_block (e : xenv) (p : nat) (a : astate) : xres (block * position * astate) :=
  xbind (x_position e p) (fun ps =>
  match a_blocks a with
  | [] => XAssert
  | b :: bs =>
      if Nat.leb (b_bstart b) p && Nat.leb (offset (b_rstart b)) (offset ps)
         && match a_prev a with None => true | Some q => negb (nonempty (b_kids q)) end
      then let b' := mkblk (b_top b) (b_bstart b) p (b_rstart b) ps (b_seq b) (b_kids b) in
           XOk (b', ps, set_prev (set_blocks a bs) (Some b'))
      else XAssert
  end).

(** parser.c:927-936 block_end_action *)
Definition do_block_end (e : xenv) (p : nat) (a : astate) : xres astate :=
  xbind (close_block e p a) (fun r => XOk (snd r)).

(** parser.c:940-953 block_replace_action *)
Definition do_block_replace (e : xenv) (p : nat) (a : astate) : xres astate :=
  xbind (close_block e p a) (fun r =>
  let '(b, _, a') := r in
  XOk (set_blocks a' (new_block p (b_rstart b) :: a_blocks a'))).

(** parser.c:957-981 block_merge_action *)
Definition do_block_merge (e : xenv) (p : nat) (a : astate) : xres astate :=
  xbind (close_block e p a) (fun r =>
  let '(b, _, a') := r in
  match b_kids b with
  | [] => XOk a'
  | ks =>
      match a_blocks a' with
      | [] => XAssert
      | q :: bs =>
          XOk (set_prev
                 (set_blocks a' (mkblk (b_top q) (b_bstart q) (b_bend q) (b_rstart q) (b_rend q)
                                       (b_seq q) (b_kids q ++ ks) :: bs))
                 (Some (mkblk (b_top b) (b_bstart b) (b_bend b) (b_rstart b) (b_rend b) (b_seq b) [])))
      end
  end).

(** ** Values *)

Definition get_slot (k : nat) (a : astate) : xres (option node) :=
  match a_frames a with
  | f :: _ => match nth_error f k with Some (Some v) => XOk v | _ => XUninit end
  | [] => XUninit
  end.

Fixpoint upd {X} (l : list X) (k : nat) (x : X) : option (list X) :=
  match l, k with
  | _ :: l, 0 => Some (x :: l)
  | y :: l, S k => match upd l k x with Some l => Some (y :: l) | None => None end
  | [], _ => None
  end.

Definition put_slot (k : nat) (v : option node) (a : astate) : xres astate :=
  match a_frames a with
  | f :: fs => match upd f k (Some v) with
               | Some f' => XOk (set_frames a (f' :: fs))
               | None => XUninit
               end
  | [] => XUninit
  end.

Definition eval_arg (x : arg) (a : astate) : xres (option node) :=
  match x with ANull => XOk None | AVar k => get_slot k a end.

Fixpoint eval_args (l : list arg) (a : astate) : xres (list (option node)) :=
  match l with
  | [] => XOk []
  | x :: l => xbind (eval_arg x a) (fun v => xbind (eval_args l a) (fun vs => XOk (v :: vs)))
  end.

(** isspace() in the C locale: space, \t, \n, \v, \f, \r *)
Definition is_space (c : ascii) : bool := in_class [SPC; TAB; NL; "011"%char; "012"%char; CR] c.

(** parser.c:2712-2715 *)
Fixpoint ltrim (s : bytes) : bytes :=
  match s with c :: s' => if is_space c then ltrim s' else s | [] => [] end.
Definition trim (s : bytes) : bytes := rev (ltrim (rev (ltrim s))).

Fixpoint take_while {X} (f : X -> bool) (l : list X) : list X :=
  match l with x :: l => if f x then x :: take_while f l else [] | [] => [] end.
Fixpoint drop_while {X} (f : X -> bool) (l : list X) : list X :=
  match l with x :: l' => if f x then drop_while f l' else l | [] => [] end.

(** One constructor argument; also the operators left on the stack *)
Definition eval_bparam (inp : bytes) (b : block) (args : list (option node)) (sb : bytes)
    (ops : list oper) (p : bparam) : option (aparam * list oper) :=
  match p with
  | BArg k => match nth_error args k with Some v => Some (PN v, ops) | None => None end
  | BNull => Some (PN None, ops)
  | BLitB x => Some (PB x, ops)
  | BLitD d => Some (PD d, ops)
  | BSeq => Some (PL (b_seq b), ops)
  | BSeqWhile v t => Some (PL (take_while (fun n => Bool.eqb (is_a n t) v) (b_seq b)), ops)
  | BSeqAfter v t => Some (PL (drop_while (fun n => Bool.eqb (is_a n t) v) (b_seq b)), ops)
  | BSeqPairs => Some (PL (firstn (2 * Nat.div2 (List.length (b_seq b))) (b_seq b)), ops)
  | BSeqEven =>
      if Nat.even (List.length (b_seq b)) then Some (PL (b_seq b), ops) else None
  | BOpPop => match ops with [] => Some (PO None, []) | o :: r => Some (PO (Some o), r) end
  | BChainOps =>
      let n := List.length (b_seq b) in
      if Nat.ltb 1 n && Nat.leb (n - 1) (List.length ops)
      then Some (POs (rev (firstn (n - 1) ops)), skipn (n - 1) ops)
      else None
  | BStrbuf => Some (PS sb, ops)
  | BBlock => Some (PS (slice inp (b_bstart b) (b_bend b)), ops)
  | BBlockTrim => Some (PS (trim (slice inp (b_bstart b) (b_bend b))), ops)
  end.

Fixpoint eval_bparams (inp : bytes) (b : block) (args : list (option node)) (sb : bytes)
    (ops : list oper) (l : list bparam) : option (list aparam * list oper) :=
  match l with
  | [] => Some ([], ops)
  | p :: l =>
      match eval_bparam inp b args sb ops p with
      | None => None
      | Some (x, ops1) =>
          match eval_bparams inp b args sb ops1 l with
          | None => None
          | Some (xs, ops2) => Some (x :: xs, ops2)
          end
      end
  end.

(** parser.c:1102-3078, add_terminal 3081-3092, add_child 3095-3109 *)
Definition do_build (e : xenv) (c : ctor) (args : list (option node)) (a : astate)
    : xres (node * astate) :=
  match a_prev a with
  | None => XAssert
  | Some b =>
      let (ty, bps) := build_call c in
      match eval_bparams (e_inp e) b args (a_sb a) (a_ops a) bps with
      | None => XAssert
      | Some (ps, ops) =>
          if terminal ty && nonempty (b_kids b) then XAssert
          else match construct (a_fresh a) ty ps (if terminal ty then [] else b_kids b)
                               (mkrange (b_rstart b) (b_rend b)) with
               | None => XInvalid
               | Some n =>
                   match a_blocks a with
                   | [] => XAssert
                   | q :: bs =>
                       XOk (n, set_fresh (set_ops (set_prev (set_blocks a
                              (mkblk (b_top q) (b_bstart q) (b_bend q) (b_rstart q) (b_rend q)
                                     (b_seq q) (b_kids q ++ [n]) :: bs)) None) ops)
                              (S (a_fresh a)))
                   end
               end
      end
  end.

Definition eval_rhs (e : xenv) (r : rhs) (a : astate) : xres (option node * astate) :=
  match r with
  | RArg x => xbind (eval_arg x a) (fun v => XOk (v, a))
  | RMk c l =>
      xbind (eval_args l a) (fun vs =>
      xbind (do_build e c vs a) (fun r => XOk (Some (fst r), snd r)))
  end.

(** parser.c:816-837 finished: give a context to the errors that have none,
    starting with the last and stopping at the first that has one *)
Fixpoint fill_contexts (e : xenv) (rerrs : list perror) : xres (list perror) :=
  match rerrs with
  | [] => XOk []
  | r :: rs =>
      match pe_ctx r with
      | Some _ => XOk (r :: rs)
      | None =>
          match line_context (firstn (e_limit e) (e_inp e)) (offset (pe_pos r) - offset (e_off e)) 80 with
          | None => XAssert
          | Some c => xbind (fill_contexts e rs) (fun rs' => XOk (mkerr (pe_pos r) (pe_msg r) (Some c) :: rs'))
          end
      end
  end.

Definition do_finished (e : xenv) (a : astate) : xres astate :=
  xbind (fill_contexts e (rev (a_errs a))) (fun es =>
  XOk (set_errs (set_consumed a (e_pos e)) (rev es))).

(** parser.c:1058-1069 _sequence_add.  A NULL element would make any later use
    of the sequence fail; it is reported at once. *)
Definition do_seq_add (v : option node) (a : astate) : xres astate :=
  match v, a_blocks a with
  | Some n, b :: bs =>
      XOk (set_blocks a (mkblk (b_top b) (b_bstart b) (b_bend b) (b_rstart b) (b_rend b)
                               (b_seq b ++ [n]) (b_kids b) :: bs))
  | _, _ => XAssert
  end.

Fixpoint exec_stmt (e : xenv) (s : stmt) (a : astate) : xres astate :=
  match s with
  | SFinished => do_finished e a
  | SResult x => xbind (eval_arg x a) (fun v => XOk (set_result a v))
  | SSeqAdd x => xbind (eval_arg x a) (fun v => do_seq_add v a)
  | SStrReset => XOk (set_sb a [])                       (* string_buffer.h:44 *)
  | SStrAppend b => XOk (set_sb a (a_sb a ++ b))         (* parser.c:1039-1045 *)
  | SStrBlock =>                                         (* parser.c:1048-1055 *)
      match a_prev a with
      | None => XAssert
      | Some b => XOk (set_sb a (a_sb a ++ slice (e_inp e) (b_bstart b) (b_bend b)))
      end
  | SEof => XOk (set_eof a true)
  | SOpPush o => XOk (set_ops a (o :: a_ops a))          (* parser.c:1072-1078 *)
  | SDrop r => xbind (eval_rhs e r a) (fun r => XOk (snd r))
  | SLet LRet r => xbind (eval_rhs e r a) (fun r => XOk (set_ret (snd r) (fst r)))
  | SLet (LVar k) r => xbind (eval_rhs e r a) (fun r => put_slot k (fst r) (snd r))
  | SIfNotIdent x s =>
      xbind (eval_arg x a) (fun v =>
      if match v with Some n => is_a n T_IDENTIFIER | None => false end
      then XOk a else exec_stmt e s a)
  end.

Fixpoint exec_stmts (e : xenv) (l : list stmt) (a : astate) : xres astate :=
  match l with
  | [] => XOk a
  | s :: l => xbind (exec_stmt e s a) (exec_stmts e l)
  end.

Definition exec_action (e : xenv) (t : action) (p : nat) (a : astate) : xres astate :=
  match t with
  | TPush n => XOk (set_frames a (repeat None n :: a_frames a))
  | TPop _ => XOk (set_frames a (tl (a_frames a)))
  | TSet k => put_slot k (a_ret a) a
  | TBlockStart => do_block_start e p a
  | TBlockEnd => do_block_end e p a
  | TBlockReplace => do_block_replace e p a
  | TBlockMerge => do_block_merge e p a
  | TDo l => exec_stmts e l a
  end.

(** leg yyDone: the thunks in the order in which they were added *)
Fixpoint exec (e : xenv) (ts : list (action * nat)) (a : astate) : xres astate :=
  match ts with
  | [] => XOk a
  | (t, p) :: ts => xbind (exec_action e t p a) (exec e ts)
  end.
