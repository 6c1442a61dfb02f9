(** * Match-time state of the Cypher parser (lib/src/parser.c)

    The fields of YY_CTX_MEMBERS (parser.c:479-495) that code run while
    matching reads or writes.  None of them is restored on backtracking. *)
From Verif Require Import Peg QuickModel ErrModel CypherSyntax CypherGrammar OperModel.

Record cuser := mkcu {
  c_lines : list nat;        (* line_start_offsets, last first *)
  c_precs : list nat;        (* precedences, last first *)
  c_op : option oper;        (* op *)
  c_et : etrack }.           (* error_tracking *)

Definition set_lines (u : cuser) l := mkcu l (c_precs u) (c_op u) (c_et u).
Definition set_precs (u : cuser) l := mkcu (c_lines u) l (c_op u) (c_et u).
Definition set_op (u : cuser) o := mkcu (c_lines u) (c_precs u) o (c_et u).
Definition set_et (u : cuser) e := mkcu (c_lines u) (c_precs u) (c_op u) e.

(** parser.c:1081-1090 _prec_push: the pushed value *)
Definition next_prec (o : oper) : nat :=
  match oassoc o with LEFT_ASSOC => oprec o + 1 | _ => oprec o end.

(** parser.c:1015-1027 _err.  [c]: the byte at the failure position.  The code
    uses NUL if that byte has not been read into the buffer yet
    ("__pos < __limit"); a primitive that fails at a position has always tried
    to read the byte there first, so the model takes the byte of the input. *)
Definition do_err (off : position) (p : nat) (c : option ascii) (label : bytes)
    (u : cuser) : option cuser :=
  let l := backtrack (c_lines u) p in
  match input_position off l p with
  | None => None
  | Some ps =>
      match et_note (c_et u) ps (match c with Some b => b | None => NUL end) label with
      | None => None
      | Some e => Some (set_et (set_lines u l) e)
      end
  end.

(** The code between [&{ }], of [<] and [>] (parser.c:503-506), and of the
    error blocks.  [None]: failed assert or NULL dereference. *)
Definition cprun (col : coloring) (off : position)
    (q : pred) (p : nat) (c : option ascii) (u : cuser)
    : option (bool * cuser * list action) :=
  match q with
  | QDo a => Some (true, u, [a])
  | QOp o => Some (true, set_op u (Some o), [])                 (* parser.c:168 *)
  | QPrecChk =>                                                 (* parser.c:177-178 *)
      match c_op u with
      | None => None
      | Some o => Some (Nat.leb (hd 0 (c_precs u)) (oprec o), u, [])
      end
  | QPrecPush =>                                                (* parser.c:1081-1090 *)
      match c_op u with
      | None => None
      | Some o => Some (true, set_precs u (next_prec o :: c_precs u), [])
      end
  | QPrecPushTop => Some (true, set_precs u (0 :: c_precs u), [])   (* parser.c:1093-1099 *)
  | QPrecPop => Some (true, set_precs u (tl (c_precs u)), [])       (* parser.c:179 *)
  | QLineStart => Some (true, set_lines u (line_start p (c_lines u)), [])  (* parser.c:840-853 *)
  | QRecordError => Some (true, set_et u (et_reify col (c_et u)), [])      (* parser.c:1030-1036 *)
  | QConst b => Some (b, u, [])
  | QErr label =>
      match do_err off p c label u with
      | None => None
      | Some u' => Some (true, u', [])
      end
  end.

(** One call of a rule function on the bytes [inp] not yet consumed. *)
Definition crun (col : coloring) (off : position) (n : nat) (inp : bytes)
    (e : cexp) (s : pst action cuser) : res action cuser :=
  run CG (get_of inp) (cprun col off) n e s.
