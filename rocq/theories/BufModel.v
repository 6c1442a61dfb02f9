(** * Reading the input piece by piece

    The machine of Peg.v takes the bytes of a round as given.  The code reads them on demand:
    leg's runtime keeps a buffer and asks a source for more when it runs out.  This file models
    that: the sources (parser.c:63-118, quick_parser.c:37-67), YY_INPUT (parser.c:510-511,
    530-539; quick_parser.c:104-105, 125-134), leg's yyrefill, and the same machine on top.

    peg/leg 0.1.18, compile.c, the generated
<<
    YY_LOCAL(int) yyrefill(yycontext *yy)
    {
      int yyn;
      while (yy->__buflen - yy->__pos < 512)
        {
          yy->__buflen *= 2;
          yy->__buf= YY_REALLOC(yy, yy->__buf, yy->__buflen);
        }
      YY_INPUT(yy, (yy->__buf + yy->__pos), yyn, (yy->__buflen - yy->__pos));
      if (!yyn) return 0;
      yy->__limit += yyn;
      return 1;
    }
>>
    Simplification: allocation never fails here. *)
From Verif Require Import Peg.

(** ** Sources *)

(** parser.c:50 source_cb_t: given the state of the source and the room in the buffer, the
    bytes written ([[]]: returns 0) and the new state. *)
Definition source (T : Type) := T -> nat -> bytes * T.

(** parser.c:63-67 struct source_from_buffer_data *)
Record bufsrc := mkbs { bs_buffer : bytes; bs_length : nat }.

(** parser.c:70-81, quick_parser.c:44-55 source_from_buffer.  [input->buffer] is not advanced. *)
Definition source_from_buffer : source bufsrc := fun s n =>
  let len := Nat.min (bs_length s) n in
  (firstn len (bs_buffer s), mkbs (bs_buffer s) (bs_length s - len)).

(** parser.c:106-116, quick_parser.c:58-67 source_from_stream: one byte, if there is one.  The
    state is what getc() has not returned yet. *)
Definition source_from_stream : source bytes := fun s _ =>
  match s with [] => ([], []) | c :: s' => ([c], s') end.

(** Any other way of cutting an input: the state is the list of pieces to come.  Of a piece
    larger than the room, the rest comes with the next call. *)
Definition source_of_pieces : source (list bytes) := fun s n =>
  match s with
  | [] => ([], [])
  | c :: s' =>
      (firstn n c, match skipn n c with [] => s' | r => r :: s' end)
  end.

(** ** The buffer *)

(** [m_data]: __buf[0..__limit); [m_size]: __buflen; [m_src]: source_data. *)
Record buf (T : Type) := mkbuf { m_data : bytes; m_size : nat; m_src : T }.
Arguments mkbuf {T}.
Arguments m_data {T}.
Arguments m_size {T}.
Arguments m_src {T}.

(** leg: YY_BUFFER_SIZE, and the room yyrefill insists on *)
Definition BUFFER_SIZE : nat := 1024.
Definition MIN_ROOM : nat := 512.

(** yyrefill: the while loop.  [m_size] is at least 512 and [p] at most [m_size], so the loop
    runs at most once ([size_room] in BufProofs.v). *)
Definition grow (size p : nat) : nat :=
  if Nat.ltb (size - p) MIN_ROOM then 2 * size else size.

Section Buffer.
Context {T : Type}.
Variable src : source T.

(** yyrefill with yy->__pos = [p].  [None]: the bytes are written at __pos but counted from
    __limit; unless the two agree the buffer no longer holds the input. *)
Definition refill (p : nat) (b : buf T) : option (bool * buf T) :=
  if Nat.eqb p (List.length (m_data b)) then
    let size := grow (m_size b) p in
    let (got, s') := src (m_src b) (size - p) in
    Some (match got with [] => false | _ => true end, mkbuf (m_data b ++ got) size s')
  else None.

(** "yy->__pos >= yy->__limit && !yyrefill(yy)": the byte at [p], if there is one *)
Definition fetch (p : nat) (b : buf T) : option (option ascii * buf T) :=
  if Nat.ltb p (List.length (m_data b)) then Some (nth_error (m_data b) p, b)
  else match refill p b with
       | None => None
       | Some (ok, b') => Some (if ok then nth_error (m_data b') p else None, b')
       end.

(** leg's yyCommit: drop the first [p] bytes *)
Definition commit (p : nat) (b : buf T) : buf T :=
  mkbuf (skipn p (m_data b)) (m_size b) (m_src b).

(** leg's yyparsefrom, first call: allocate the buffer *)
Definition buf0 (s : T) : buf T := mkbuf [] BUFFER_SIZE s.

(** ** The machine of Peg.v on top of the buffer *)

Inductive bres (A U : Type) : Type :=
| BOk (s : pst A U) (b : buf T)
| BFail (s : pst A U) (b : buf T)
| BStuck
| BFuel.
Arguments BOk {A U} s b.
Arguments BFail {A U} s b.
Arguments BStuck {A U}.
Arguments BFuel {A U}.

Context {R A Q U : Type}.
Variable G : R -> pexp R A Q.
Variable prun : Q -> nat -> option ascii -> U -> option (bool * U * list A).
Notation pst := (pst A U).
Notation pexp := (pexp R A Q).

(** Peg.match_str: yymatchString *)
Fixpoint bmatch_str (str : bytes) (p0 p : nat) (b : buf T) : option ((nat + nat) * buf T) :=
  match str with
  | [] => Some (inl p, b)
  | c :: str' =>
      match fetch p b with
      | None => None
      | Some (None, b') => Some (inr p, b')
      | Some (Some c', b') => if beq c c' then bmatch_str str' p0 (S p) b' else Some (inr p0, b')
      end
  end.

(** Peg.run_pred.  The code does not refill here: it sees the byte at __pos only if it is in
    the buffer (parser.c:1015-1027 _err, "__pos < __limit"). *)
Definition brun_pred (q : Q) (s : pst) (b : buf T) : bres A U :=
  match prun q (pos s) (nth_error (m_data b) (pos s)) (user s) with
  | None => BStuck
  | Some (v, u, l) =>
      let s' := mkst (pos s) (add_thunks l s) u in
      if v then BOk s' b else BFail s' b
  end.

(** one byte satisfying [f]: yymatchDot, yymatchChar, yymatchClass *)
Definition bmatch_one (f : ascii -> bool) (s : pst) (b : buf T) : bres A U :=
  match fetch (pos s) b with
  | None => BStuck
  | Some (Some c, b') => if f c then BOk (advance s) b' else BFail s b'
  | Some (None, b') => BFail s b'
  end.

(** Peg.run *)
Fixpoint brun (n : nat) (e : pexp) (s : pst) (b : buf T) {struct n} : bres A U :=
  match n with
  | 0 => BFuel
  | S n =>
    match e with
    | PDot => bmatch_one (fun _ => true) s b
    | PChar c => bmatch_one (beq c) s b
    | PClass cs => bmatch_one (in_class cs) s b
    | PStr str =>
        match bmatch_str str (pos s) (pos s) b with
        | None => BStuck
        | Some (inl p, b') => BOk (mkst p (thunks s) (user s)) b'
        | Some (inr p, b') => BFail (mkst p (thunks s) (user s)) b'
        end
    | PRule r =>
        match brun n (G r) s b with
        | BFail s1 b1 => BFail (restore s s1) b1
        | x => x
        end
    | PSeq e1 e2 =>
        match brun n e1 s b with
        | BOk s1 b1 => brun n e2 s1 b1
        | x => x
        end
    | PAlt e1 e2 =>
        match brun n e1 s b with
        | BFail s1 b1 => brun n e2 (restore s s1) b1
        | x => x
        end
    | PStar e =>
        match brun n e s b with
        | BOk s1 b1 => brun n (PStar e) s1 b1
        | BFail s1 b1 => BOk (restore s s1) b1
        | x => x
        end
    | PPlus e =>
        match brun n e s b with
        | BOk s1 b1 => brun n (PStar e) s1 b1
        | x => x
        end
    | PQuery e =>
        match brun n e s b with
        | BFail s1 b1 => BOk (restore s s1) b1
        | x => x
        end
    | PAnd e =>
        match brun n e s b with
        | BOk s1 b1 => BOk (restore s s1) b1
        | x => x
        end
    | PNot e =>
        match brun n e s b with
        | BOk s1 b1 => BFail s1 b1
        | BFail s1 b1 => BOk (restore s s1) b1
        | x => x
        end
    | PAct a => BOk (mkst (pos s) ((a, pos s) :: thunks s) (user s)) b
    | PPred q => brun_pred q s b
    | PErr e q =>
        match brun n e s b with
        | BFail s1 b1 =>
            match brun_pred q s1 b1 with
            | BOk s2 b2 => BFail s2 b2
            | x => x
            end
        | x => x
        end
    end
  end.

End Buffer.
Arguments BOk {T A U} s b.
Arguments BFail {T A U} s b.
Arguments BStuck {T A U}.
Arguments BFuel {T A U}.
