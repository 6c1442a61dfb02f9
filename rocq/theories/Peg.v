(** * Parsing-expression machine generated by leg

    Models the C code that the leg parser generator emits for
    [lib/src/quick_parser.leg] and [lib/src/parser.leg] (build rule
    lib/src/Makefile.am:157-166).  The generated files are not part of the
    repository; the templates below are those of peg/leg 0.1.18 ("compile.c"):
    one C function per rule, [goto]-style failure, [yyDo] recording deferred
    actions ("thunks"), and save/restore of exactly [yy->__pos] and
    [yy->__thunkpos] on backtracking.

    Everything else a parse changes (line start offsets, precedence stack,
    error notes, begin/end marks: the YY_CTX_MEMBERS of
    lib/src/quick_parser.c:90-100 and lib/src/parser.c) is user state and is
    *not* restored on backtracking; it is the type [U] here.

    Simplifications, stated once:
    - a byte is an [ascii]; positions are unbounded [nat] (the C code uses
      [int] for [__pos] and [unsigned int] in positions);
    - this machine reads the whole input of one [yyparsefrom] call through
      [get] (see BufModel.v for the lazily refilled buffer);
    - thunks carry the position at which they were recorded;
    - allocation failure ([YY_MALLOC]/[YY_REALLOC] aborting by [siglongjmp])
      is not part of this machine. *)

From Coq Require Export List Arith Lia Bool Ascii String.
Export ListNotations.
Open Scope nat_scope.
Open Scope list_scope.

Definition byte := ascii.
Definition bytes := list ascii.
Definition B (s : string) : bytes := list_ascii_of_string s.

Definition beq (a b : ascii) : bool := Ascii.eqb a b.
Definition in_class (cs : bytes) (c : ascii) : bool := existsb (beq c) cs.

(** Parsing expressions.  [R]: rule names, [A]: deferred actions,
    [Q]: code run at match time (semantic predicates [&{..}], the [<] / [>]
    marks, and the error blocks [~{..}]). *)
Inductive pexp (R A Q : Type) : Type :=
| PDot                                  (* .        yymatchDot *)
| PChar (c : ascii)                     (* 'c'      yymatchChar *)
| PStr (s : bytes)                      (* 'str'    yymatchString *)
| PClass (cs : bytes)                   (* [...]    yymatchClass *)
| PRule (r : R)                         (* name     yy_name(yy) *)
| PSeq (e1 e2 : pexp R A Q)
| PAlt (e1 e2 : pexp R A Q)
| PStar (e : pexp R A Q)
| PPlus (e : pexp R A Q)
| PQuery (e : pexp R A Q)
| PAnd (e : pexp R A Q)                 (* & e      PeekFor *)
| PNot (e : pexp R A Q)                 (* ! e      PeekNot *)
| PAct (a : A)                          (* { ... }  yyDo *)
| PPred (q : Q)                         (* &{ ... }, <, > *)
| PErr (e : pexp R A Q) (q : Q).        (* e ~{ ... } *)

Arguments PDot {R A Q}.
Arguments PChar {R A Q} c.
Arguments PStr {R A Q} s.
Arguments PClass {R A Q} cs.
Arguments PRule {R A Q} r.
Arguments PSeq {R A Q} e1 e2.
Arguments PAlt {R A Q} e1 e2.
Arguments PStar {R A Q} e.
Arguments PPlus {R A Q} e.
Arguments PQuery {R A Q} e.
Arguments PAnd {R A Q} e.
Arguments PNot {R A Q} e.
Arguments PAct {R A Q} a.
Arguments PPred {R A Q} q.
Arguments PErr {R A Q} e q.

Record pst (A U : Type) : Type := mkst {
  pos : nat;                      (* yy->__pos *)
  thunks : list (A * nat);        (* yy->__thunks[0..__thunkpos), newest first *)
  user : U                        (* YY_CTX_MEMBERS and __begin/__end *)
}.
Arguments mkst {A U} pos thunks user.
Arguments pos {A U} p.
Arguments thunks {A U} p.
Arguments user {A U} p.

(** Outcome of matching: success, failure (the state is the one at the jump to
    the failure label, i.e. *not yet* restored), an abort of the process
    (failed [assert] or undefined behaviour in match-time code), or exhaustion
    of the model's fuel. *)
Inductive res (A U : Type) : Type :=
| ROk (s : pst A U)
| RFail (s : pst A U)
| RStuck
| RFuel.
Arguments ROk {A U} s.
Arguments RFail {A U} s.
Arguments RStuck {A U}.
Arguments RFuel {A U}.

Section Machine.
Context {R A Q U : Type}.
Variable G : R -> pexp R A Q.                (* the grammar *)
Variable get : nat -> option ascii.          (* the input of this yyparsefrom *)
(** match-time code: position, current byte if any, user state; [None] is an
    abort; otherwise (verdict, new user state, thunks recorded) *)
Variable prun : Q -> nat -> option ascii -> U -> option (bool * U * list A).

Notation pst := (pst A U).
Notation res := (res A U).
Notation pexp := (pexp R A Q).

(** leg: "yy->__pos= yyposN; yy->__thunkpos= yythunkposN" *)
Definition restore (s s1 : pst) : pst := mkst (pos s) (thunks s) (user s1).

Definition advance (s : pst) : pst := mkst (S (pos s)) (thunks s) (user s).

(** yymatchString: byte by byte; on a mismatch __pos is put back, at end of
    input it returns 0 leaving __pos where it is. *)
Fixpoint match_str (str : bytes) (p0 p : nat) : nat + nat :=
  match str with
  | [] => inl p
  | c :: str' =>
      match get p with
      | None => inr p
      | Some c' => if beq c c' then match_str str' p0 (S p) else inr p0
      end
  end.

Definition add_thunks (l : list A) (s : pst) : list (A * nat) :=
  fold_left (fun acc a => (a, pos s) :: acc) l (thunks s).

(** "&{ code }" : if (!(code)) goto ko *)
Definition run_pred (q : Q) (s : pst) : res :=
  match prun q (pos s) (get (pos s)) (user s) with
  | None => RStuck
  | Some (b, u, l) =>
      let s' := mkst (pos s) (add_thunks l s) u in
      if b then ROk s' else RFail s'
  end.

(** One C function per rule, one code fragment per expression node. *)
Fixpoint run (n : nat) (e : pexp) (s : pst) {struct n} : res :=
  match n with
  | 0 => RFuel
  | S n =>
    match e with
    | PDot =>
        match get (pos s) with Some _ => ROk (advance s) | None => RFail s end
    | PChar c =>
        match get (pos s) with
        | Some c' => if beq c c' then ROk (advance s) else RFail s
        | None => RFail s
        end
    | PStr str =>
        match match_str str (pos s) (pos s) with
        | inl p => ROk (mkst p (thunks s) (user s))
        | inr p => RFail (mkst p (thunks s) (user s))
        end
    | PClass cs =>
        match get (pos s) with
        | Some c' => if in_class cs c' then ROk (advance s) else RFail s
        | None => RFail s
        end
    | PRule r =>
        match run n (G r) s with
        | RFail s1 => RFail (restore s s1)
        | x => x
        end
    | PSeq e1 e2 =>
        match run n e1 s with
        | ROk s1 => run n e2 s1
        | x => x
        end
    | PAlt e1 e2 =>
        match run n e1 s with
        | RFail s1 => run n e2 (restore s s1)
        | x => x
        end
    | PStar e =>
        match run n e s with
        | ROk s1 => run n (PStar e) s1
        | RFail s1 => ROk (restore s s1)
        | x => x
        end
    | PPlus e =>
        match run n e s with
        | ROk s1 => run n (PStar e) s1
        | x => x
        end
    | PQuery e =>
        match run n e s with
        | RFail s1 => ROk (restore s s1)
        | x => x
        end
    | PAnd e =>
        match run n e s with
        | ROk s1 => ROk (restore s s1)
        | x => x
        end
    | PNot e =>
        match run n e s with
        | ROk s1 => RFail s1
        | RFail s1 => ROk (restore s s1)
        | x => x
        end
    | PAct a => ROk (mkst (pos s) ((a, pos s) :: thunks s) (user s))
    | PPred q => run_pred q s
    | PErr e q =>
        match run n e s with
        | RFail s1 =>
            (* the error block runs where the failure happened; its value is
               discarded and the failure continues *)
            match run_pred q s1 with
            | ROk s2 => RFail s2
            | x => x
            end
        | x => x
        end
    end
  end.

End Machine.
