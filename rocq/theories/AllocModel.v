(** * The memory of a parse, with allocations that may fail
    (parser.c:583-813, 890-1012, 1039-1099, 3081-3109, vector.c, string_buffer.c,
    errors.c, segment.c:24-107, result.c:84-170)

    The model runs beside the parse of CypherParse.v and follows who owns which
    block of memory.  The n-th allocation of a call returns the block [n], which
    has not been used before, or NULL.  Freeing a block that is not allocated and
    reading or writing through a pointer to such a block or through NULL is
    undefined: the outcome [MUndef].

    Simplifications.  cypher_parse_segment and cp_result_merge_segment are given
    three answers of the allocator whether they need them or not.  Whether a push finds room is not computed from the
    capacities but chosen by the schedule, and so are the growths and errors
    during matching: the theorems hold for every choice.  A realloc that succeeds
    always moves.  A constructor allocates its node, [parts] further blocks and
    the array of children; what it allocated is not freed if a later one of these
    fails (most constructors do free it).  The trees of a block are freed in
    order, not last first. *)
From Coq Require Import List Bool Arith ZArith.
From Verif Require Import AnnotModel OwnModel.
From Verif Require Import Peg QuickModel ErrModel CypherSyntax CypherGrammar CypherMatch
  AstTypes AstModel CypherBuild CypherExec CypherParse.
Import ListNotations.

(** The growing arrays of the parser: the four vectors (parser.c:589-592), the
    string buffer, the buffers of the generated parser, the labels and the errors
    of the error tracking *)
Inductive store : Set :=
| VLines | VBlocks | VOps | VPrecs | SBuffer | LBuffer | LText | LThunks | LValues | ELabels | EErrors.

Definition store_eqb (x y : store) : bool :=
  match x, y with
  | VLines, VLines | VBlocks, VBlocks | VOps, VOps | VPrecs, VPrecs | SBuffer, SBuffer | LBuffer, LBuffer
  | LText, LText | LThunks, LThunks | LValues, LValues | ELabels, ELabels | EErrors, EErrors => true
  | _, _ => false
  end.

(** Where an allocation is made: by a push on a vector; elsewhere below
    parse_one; in parse_each, segment.c and result.c *)
Inductive site : Set := SVector | SParse | SOuter.

Definition store_site (s : store) : site :=
  match s with VLines | VBlocks | VOps | VPrecs => SVector | _ => SParse end.

(** What matching does: an array grows, or an error is recorded *)
Inductive mev : Set := MvGrow (s : store) | MvError.

Record sched := mksched {
  fails : site -> nat -> bool;        (* the n-th allocation fails *)
  grows : nat -> bool;                (* the n-th push or append finds no room *)
  parts : nat -> nat;                 (* further blocks of the node [n] *)
  events : nat -> list mev }.         (* matching, in the n-th round *)

(** parser.c:113-121 struct block *)
Record mblk := mkmb { k_self : addr; k_seq : option addr; k_kids : option addr; k_trees : list tree }.

Record mem := mkmem {
  m_own : own;
  m_next : nat;                       (* allocations so far *)
  m_tick : nat;                       (* pushes so far *)
  m_log : list (site * nat);          (* allocations made, and where *)
  m_store : store -> option addr;
  m_errs : list serr;                 (* error_tracking.errors *)
  m_stack : list mblk;                (* yy->blocks, last first *)
  m_prev : option mblk }.             (* yy->prev_block *)

Definition mem0 (o : own) (n : nat) : mem := mkmem o n 0 [] (fun _ => None) [] [] None.

Definition with_own (m : mem) x := mkmem x (m_next m) (m_tick m) (m_log m) (m_store m) (m_errs m) (m_stack m) (m_prev m).
Definition with_store (m : mem) s a := mkmem (m_own m) (m_next m) (m_tick m) (m_log m)
  (fun t => if store_eqb s t then Some a else m_store m t) (m_errs m) (m_stack m) (m_prev m).
Definition with_errs (m : mem) x := mkmem (m_own m) (m_next m) (m_tick m) (m_log m) (m_store m) x (m_stack m) (m_prev m).
Definition with_stack (m : mem) x := mkmem (m_own m) (m_next m) (m_tick m) (m_log m) (m_store m) (m_errs m) x (m_prev m).
Definition with_prev (m : mem) x := mkmem (m_own m) (m_next m) (m_tick m) (m_log m) (m_store m) (m_errs m) (m_stack m) x.
Definition ticked (m : mem) := mkmem (m_own m) (m_next m) (S (m_tick m)) (m_log m) (m_store m) (m_errs m) (m_stack m) (m_prev m).

(** [MAbort]: abort_parse (parser.c:519-520), or yyparsefrom returned 0.
    [MStop]: an assertion fails, as in CypherExec.v. *)
Inductive mres (X : Type) : Type := MOk (x : X) (m : mem) | MAbort (m : mem) | MUndef | MStop.
Arguments MOk {X}. Arguments MAbort {X}. Arguments MUndef {X}. Arguments MStop {X}.

Definition mbind {X Y} (r : mres X) (f : X -> mem -> mres Y) : mres Y :=
  match r with MOk x m => f x m | MAbort m => MAbort m | MUndef => MUndef | MStop => MStop end.

Section WithSchedule.
Variable sc : sched.

(** the answer of the allocator; the block is handed to OwnModel.v *)
Definition draw (st : site) (m : mem) : option addr * mem :=
  let n := m_next m in
  (if fails sc st n then None else Some n,
   mkmem (m_own m) (S n) (m_tick m) ((st, n) :: m_log m) (m_store m) (m_errs m) (m_stack m) (m_prev m)).

(** malloc, calloc *)
Definition take (st : site) (m : mem) : option addr * mem :=
  match draw st m with
  | (Some a, m) => (Some a, with_own m (alloc a (m_own m)))
  | (None, m) => (None, m)
  end.

Definition mfree (l : list addr) (m : mem) : mres unit :=
  match free_all l (m_own m) with Some o => MOk tt (with_own m o) | None => MUndef end.

(** realloc of an array [old].  vector.c:62-68: cp_vector_push tests the element
    instead of the new array, and then writes through NULL; the others
    (string_buffer.c:33-37, errors.c:106-110, 131-136, parser.c:805-813) report
    the failure and keep the old array *)
Definition grow (st : site) (old : option addr) (m : mem) : mres addr :=
  match take st m with
  | (None, m) => match st with SVector => MUndef | _ => MAbort m end
  | (Some a, m) => mbind (mfree (blk old) m) (fun _ m => MOk a m)
  end.

(** a push or append: the array grows if it is full *)
Definition push (st : site) (old : option addr) (m : mem) : mres (option addr) :=
  let full := match old with None => true | Some _ => grows sc (m_tick m) end in
  if full then mbind (grow st old (ticked m)) (fun a m => MOk (Some a) m) else MOk old (ticked m).

Definition push_store (s : store) (m : mem) : mres unit :=
  mbind (push (store_site s) (m_store m s) m) (fun a m =>
  MOk tt (match a with Some a => with_store m s a | None => m end)).

(** parser.c:998-1012 block_free *)
Definition mblock_frees (b : mblk) : list addr :=
  flat_map tree_frees (k_trees b) ++ blk (k_seq b) ++ blk (k_kids b) ++ [k_self b].

Definition mblock_free (b : option mblk) (m : mem) : mres unit :=
  match b with None => MOk tt m | Some b => mfree (mblock_frees b) m end.

(** parser.c:905-923 block_start; the caller decides what NULL means *)
Definition mblock_start (st : site) (m : mem) : mres addr :=
  match take st m with
  | (None, m) => MAbort m
  | (Some a, m) =>
      mbind (push_store VBlocks m) (fun _ m =>
      MOk a (with_stack m (mkmb a None None [] :: m_stack m)))
  end.

(** parser.c:984-995 block_end with 927-936: the last block becomes prev_block *)
Definition mblock_end (m : mem) : mres mblk :=
  match m_stack m with
  | [] => MStop
  | b :: bs => mbind (mblock_free (m_prev m) m) (fun _ m => MOk b (with_prev (with_stack m bs) (Some b)))
  end.

(** parser.c:957-981 block_merge_action, after block_end: each child is pushed
    on the children of the enclosing block *)
Fixpoint push_kids (ts : list tree) (m : mem) : mres unit :=
  match ts with
  | [] => MOk tt m
  | t :: ts =>
      match m_stack m with
      | [] => MStop
      | q :: bs =>
          mbind (push SVector (k_kids q) m) (fun a m =>
          push_kids ts (with_stack m (mkmb (k_self q) (k_seq q) a (k_trees q ++ [t]) :: bs)))
      end
  end.

Definition mblock_merge (m : mem) : mres unit :=
  mbind (mblock_end m) (fun b m =>
  mbind (push_kids (k_trees b) (with_prev m (Some (mkmb (k_self b) (k_seq b) (k_kids b) [])))) (fun _ m =>
  MOk tt m)).

(** [n] blocks *)
Fixpoint take_many (n : nat) (m : mem) : mres (list addr) :=
  match n with
  | 0 => MOk [] m
  | S n =>
      match take SParse m with
      | (None, m) => MAbort m
      | (Some a, m) => mbind (take_many n m) (fun l m => MOk (a :: l) m)
      end
  end.

(** the constructors of ast_*.c with cypher_astnode_init (ast.c:889-907), then
    add_terminal and add_child (parser.c:3081-3109) or their like in
    parser.c:1102-3078 *)
Definition mbuild (term : bool) (m : mem) : mres unit :=
  match m_prev m with
  | None => MStop
  | Some b =>
      let kids := if term then [] else k_trees b in
      let left := if term then k_trees b else [] in
      mbind (take_many (S (parts sc (m_next m))) m) (fun own m =>
      mbind (match kids with [] => MOk [] m | _ => take_many 1 m end) (fun arr m =>
      let t := Tree own (hd_error arr) kids in
      mbind (mblock_free (Some (mkmb (k_self b) (k_seq b) (k_kids b) left)) m) (fun _ m =>
      push_kids [t] (with_prev m None))))
  end.

(** parser.c:816-837 finished: line_context allocates the context of each error
    that has none, last first *)
Fixpoint add_contexts (rerrs : list serr) (m : mem) : mres (list serr) :=
  match rerrs with
  | [] => MOk [] m
  | r :: rs =>
      match se_context r with
      | Some _ => MOk (r :: rs) m
      | None =>
          match take SParse m with
          | (None, m) => MAbort m
          | (Some a, m) =>
              (* the error is updated at once *)
              let m := with_errs m (rev rs ++ mkserr (se_msg r) (Some a) :: skipn (S (List.length rs)) (m_errs m)) in
              mbind (add_contexts rs m) (fun rs m => MOk (mkserr (se_msg r) (Some a) :: rs) m)
          end
      end
  end.

Definition mrhs (r : rhs) (m : mem) : mres unit :=
  match r with RArg _ => MOk tt m | RMk c _ => mbuild (terminal (fst (build_call c))) m end.

(** the statements of CypherExec.exec_stmt.  _sequence_add (parser.c:1058-1069)
    pushes on the sequence of the last block. *)
Fixpoint mstmt (s : stmt) (a : astate) (m : mem) : mres unit :=
  match s with
  | SFinished => mbind (add_contexts (rev (m_errs m)) m) (fun _ m => MOk tt m)
  | SResult _ | SStrReset | SEof => MOk tt m
  | SSeqAdd _ =>
      match m_stack m with
      | [] => MStop
      | q :: bs =>
          mbind (push SVector (k_seq q) m) (fun x m =>
          MOk tt (with_stack m (mkmb (k_self q) x (k_kids q) (k_trees q) :: bs)))
      end
  | SStrAppend _ | SStrBlock => push_store SBuffer m
  | SOpPush _ => push_store VOps m
  | SDrop r | SLet _ r => mrhs r m
  | SIfNotIdent x s =>
      match eval_arg x a with
      | XOk (Some n) => if is_a n T_IDENTIFIER then MOk tt m else mstmt s a m
      | _ => mstmt s a m
      end
  end.

Fixpoint mstmts (e : xenv) (l : list stmt) (a : astate) (m : mem) : mres unit :=
  match l with
  | [] => MOk tt m
  | s :: l =>
      match exec_stmt e s a with
      | XOk a' => mbind (mstmt s a m) (fun _ m => mstmts e l a' m)
      | _ => MStop
      end
  end.

Definition maction (e : xenv) (t : action) (a : astate) (m : mem) : mres unit :=
  match t with
  | TPush _ | TPop _ | TSet _ => MOk tt m
  | TBlockStart =>                                              (* parser.c:890-902 *)
      mbind (mblock_start SParse m) (fun _ m =>
      mbind (mblock_free (m_prev m) m) (fun _ m => MOk tt (with_prev m None)))
  | TBlockEnd => mbind (mblock_end m) (fun _ m => MOk tt m)
  | TBlockReplace =>                                            (* parser.c:940-953 *)
      mbind (mblock_end m) (fun _ m => mbind (mblock_start SParse m) (fun _ m => MOk tt m))
  | TBlockMerge => mblock_merge m
  | TDo l => mstmts e l a m
  end.

Fixpoint mexec (e : xenv) (ts : list (action * nat)) (a : astate) (m : mem) : mres unit :=
  match ts with
  | [] => MOk tt m
  | (t, p) :: ts =>
      match exec_action e t p a with
      | XOk a' => mbind (maction e t a m) (fun _ m => mexec e ts a' m)
      | _ => MStop
      end
  end.

(** errors.c:121-166 cp_et_reify_potentials: the message is a new block *)
Definition mevent (v : mev) (m : mem) : mres unit :=
  match v with
  | MvGrow s => push_store s m
  | MvError =>
      mbind (push_store EErrors m) (fun _ m =>
      match take SParse m with
      | (None, m) => MAbort m
      | (Some a, m) => MOk tt (with_errs m (m_errs m ++ [mkserr (Some a) None]))
      end)
  end.

Fixpoint mevents (l : list mev) (m : mem) : mres unit :=
  match l with [] => MOk tt m | v :: l => mbind (mevent v m) (fun _ m => mevents l m) end.

(** safe_yyparsefrom: matching, then the thunks *)
Definition mmatch (i : nat) (cf : config) (la : lookahead) (r : rule) (inp : bytes) (y : carry) (m : mem) : mres unit :=
  mbind (mevents (events sc i) m) (fun _ m =>
  match crun (cf_color cf) (y_off y) (cfuel inp) inp (PRule r) (match_start y) with
  | ROk s =>
      let u := user s in
      mexec (mkxe inp (la inp (pos s)) (y_off y) (c_lines u) (pos s)) (rev (thunks s))
        (mkas [] (y_ret y) [top_block (cf_position cf)] None [] (y_sb y) None false (y_consumed y) (et_errs (c_et u)) (y_fresh y) []) m
  | RFail _ => MAbort m
  | RStuck | RFuel => MStop
  end).

(** parser.c:758-775: parse_one fails *)
Fixpoint free_stack (l : list mblk) (m : mem) : mres unit :=
  match l with [] => MOk tt m | b :: l => mbind (mblock_free (Some b) m) (fun _ m => free_stack l m) end.

Definition mfailed (m : mem) : mres unit :=
  mbind (free_stack (m_stack m) (with_stack m [])) (fun _ m =>
  mbind (mblock_free (m_prev m) m) (fun _ m => MOk tt (with_prev m None))).

(** parser.c:686-697: cleanup in parse_each.  [top]: the pointer top_block, NULL
    before the block exists.  block_free reads the block. *)
Definition all_stores : list store :=
  [VLines; VBlocks; VOps; VPrecs; SBuffer; LBuffer; LText; LThunks; LValues; ELabels; EErrors].

Definition free_top (top : option addr) (m : mem) : mres unit :=
  match top with
  | None => MOk tt m
  | Some a =>
      if live (m_own m) a
      then match find (fun b => Nat.eqb (k_self b) a) (m_stack m) with
           | Some b => mbind (mblock_free (Some b) m) (fun _ m =>
                       MOk tt (with_stack m (filter (fun b => negb (Nat.eqb (k_self b) a)) (m_stack m))))
           | None => MUndef
           end
      else MUndef
  end.

Definition mcleanup (top : option addr) (m : mem) : mres unit :=
  mbind (free_top top m) (fun _ m =>
  mbind (mfree (errs_frees (m_errs m)) m) (fun _ m =>
  mfree (flat_map (fun s => blk (m_store m s)) all_stores) m)).

(** The callback, as far as memory is concerned: its value and its effect on
    the segments; [i] is the round *)
Definition mcallback := nat -> addr -> mem -> mres Z.

(** What parse_each returns, and the memory then *)
Inductive mout : Type := MRet (ret : Z) (m : mem) | MBad | MAssert | MFuel.

Definition done (ret : Z) (r : mres unit) : mout :=
  match r with MOk _ m => MRet ret m | MUndef => MBad | MAbort _ => MBad | MStop => MAssert end.

(** segment.c:24-75 with the calloc and the two mdup of it *)
Definition msegment (nn : nat) (dir : option nat) (eof : bool) (trees : list tree) (m : mem) : mres (option addr) :=
  let (m1, m) := draw SOuter m in
  let (m2, m) := draw SOuter m in
  let (m3, m) := draw SOuter m in
  match seg_new (m_errs m) trees nn dir eof m1 m2 m3 (m_own m) with
  | None => MUndef
  | Some (o, ok) => MOk (if ok then m1 else None) (with_own m o)
  end.

(** parser.c:617-684; [i] counts the rounds *)
Fixpoint mloop (k i : nat) (cf : config) (la : lookahead) (cb : mcallback) (fl : pflags) (inp : bytes) (y : carry)
    (top : addr) (m : mem) : mout :=
  match k with
  | 0 => MFuel
  | S k =>
      match mmatch i cf la (start_rule fl) inp y m with
      | MStop => MAssert
      | MUndef => MBad
      | MAbort m => done (-1) (mbind (mfailed m) (fun _ m => mcleanup (Some top) m))
      | MOk _ m =>
          match parse_one cf la (start_rule fl) inp y with
          | RdOk p lines a u =>
              if Nat.eqb (a_consumed a) 0 then
                if match a_result a with None => true | Some _ => false end && negb (nonempty (a_errs a)) && a_eof a
                then done 0 (mcleanup (Some top) m) else MAssert
              else
                match input_position (y_off y) lines (a_consumed a), m_stack m with
                | Some en, [b] =>
                    let roots := match a_blocks a with b :: _ => b_kids b | [] => [] end in
                    let seg := make_segment 0 (mkrange (y_off y) en) (a_errs a) roots (a_result a) (a_eof a) in
                    match msegment (s_nnodes seg) (s_directive seg) (s_eof seg) (k_trees b) m with
                    | MOk None m => done (-1) (mcleanup (Some top) m)
                    | MOk (Some s) m =>
                        let m := with_errs (with_stack m [mkmb (k_self b) (k_seq b) (k_kids b) []]) [] in
                        match cb i s m with
                        | MOk err m =>
                            match seg_release s (m_own m) with
                            | None => MBad
                            | Some (o, _) =>
                                let m := with_own m o in
                                if (0 <? err)%Z then done 0 (mcleanup (Some top) m)
                                else if (err <? 0)%Z then done err (mcleanup (Some top) m)
                                else if a_eof a || pf_single fl then done 0 (mcleanup (Some top) m)
                                else
                                  mloop k (S i) cf la cb fl (skipn p inp)
                                    (mkcy en (c_op u) (et_clear_errors (et_clear_potentials (c_et u)))
                                          (a_ret a) (a_sb a) (a_consumed a) (a_fresh a)) top m
                            end
                        | MStop => MAssert
                        | _ => MBad
                        end
                    | MStop => MAssert
                    | _ => MBad
                    end
                | _, _ => MAssert
                end
          | RdFuel => MFuel
          | _ => MAssert
          end
      end
  end.

(** parser.c:583-698 parse_each *)
Definition mparse_each (cf : config) (la : lookahead) (cb : mcallback) (fl : pflags) (inp : bytes) (m : mem) : mout :=
  match push_store VLines m with                                (* :604 *)
  | MOk _ m =>
      match mblock_start SOuter m with                          (* :608 *)
      | MOk top m => mloop (S (List.length inp)) 0 cf la cb fl inp (carry0 cf) top m
      | MAbort m => done (-1) (mcleanup None m)
      | MUndef => MBad
      | MStop => MAssert
      end
  | _ => MBad
  end.

(** A callback of the user: keeps a reference to some of the segments *)
Definition keeping (value : nat -> Z) (keeps : nat -> bool) : mcallback := fun i s m =>
  if keeps i then
    match seg_retain s (m_own m) with Some o => MOk (value i) (with_own m o) | None => MUndef end
  else match get_seg (m_own m) s with Some _ => MOk (value i) m | None => MUndef end.

(** parser.c:701-705 parse_all_callback *)
Definition merging (r : addr) : mcallback := fun _ s m =>
  let (m1, m) := draw SOuter m in
  let (m2, m) := draw SOuter m in
  let (m3, m) := draw SOuter m in
  match res_merge r s m1 m2 m3 (m_own m) with
  | None => MUndef
  | Some (o, ok) => MOk (if ok then 0 else -1)%Z (with_own m o)
  end.

(** parser.c:708-726 parse *)
Inductive mall : Type := MResult (r : addr) (m : mem) | MNull (m : mem) | MAllBad | MAllAssert | MAllFuel.

Definition mparse_all (cf : config) (la : lookahead) (fl : pflags) (inp : bytes) : mall :=
  match take SOuter (mem0 own0 0) with
  | (None, m) => MNull m
  | (Some r, m) =>
      let m := with_own m (set_res (m_own m) r (Some (mkresl None [] None [] 0 None [] 0 false))) in
      match mparse_each cf la (merging r) fl inp m with
      | MRet 0%Z m => MResult r m
      | MRet _ m => match res_free r (m_own m) with Some (o, _) => MNull (with_own m o) | None => MAllBad end
      | MBad => MAllBad
      | MAssert => MAllAssert
      | MFuel => MAllFuel
      end
  end.

End WithSchedule.
