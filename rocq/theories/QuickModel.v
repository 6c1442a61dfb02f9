(** * Model of the quick parser
    lib/src/quick_parser.leg and lib/src/quick_parser.c *)
From Coq Require Import ZArith.
From Verif Require Import Peg.

(** lib/src/cypher-parser.h.in: struct cypher_input_position *)
Record position := mkpos { line : nat; column : nat; offset : nat }.

(** lib/src/parser_config.c:30  cypher_input_position_zero *)
Definition position_zero : position := mkpos 1 1 0.

(** The rules of lib/src/quick_parser.leg, in file order. *)
Inductive qrule : Set :=
| Qdirective | Qclient_command | Qcommand_body | Qstatement | Qstatement_body
| Qquoted | Qsingle_quoted | Qdouble_quoted | Qescaped_char
| Qsp (* - *) | Qhsp (* -- *) | Qline_end
| Qcomment | Qline_comment | Qblock_comment | Qunclosed_block_comment
| QWS | QHWS | QEOL | QEOF | Qline_start.

(** Deferred actions. *)
Inductive qact : Set :=
| ASegment (is_statement : bool)     (* quick_parser.leg:20,32  { segment(.., yy); } *)
| AEof.                              (* quick_parser.leg:59     { yy->eof = true; } *)

(** Match-time code. *)
Inductive qpred : Set :=
| MBegin       (* <   default YY_BEGIN: (yy->__begin= yy->__pos, 1) *)
| MEnd         (* >   default YY_END:   (yy->__end= yy->__pos, 1) *)
| MLineStart.  (* quick_parser.leg:61  &{ (line_start(yy), 1) } *)

Definition qexp := pexp qrule qact qpred.

Definition NL : ascii := "010"%char.
Definition CR : ascii := "013"%char.
Definition TAB : ascii := "009"%char.
Definition SPC : ascii := " "%char.
Definition SEMI : ascii := ";"%char.
Definition COLON : ascii := ":"%char.
Definition BSL : ascii := "\"%char.
Definition SQ : ascii := "'"%char.
Definition DQ : ascii := """"%char.

Declare Scope peg_scope.
Delimit Scope peg_scope with peg.
Infix "⋅" := PSeq (at level 51, right associativity) : peg_scope.
Infix "∥" := PAlt (at level 52, right associativity) : peg_scope.
Open Scope peg_scope.

Definition chr (c : ascii) : qexp := PChar c.
Definition rl (r : qrule) : qexp := PRule r.

(** the class of quick_parser.leg:45 *)
Definition escapable : bytes :=
  ["a"; "b"; "f"; "n"; "r"; "t"; "v"; """"; "'"; "?"; "\"]%char.

(** lib/src/quick_parser.leg:17-61, rule by rule. *)
Definition QG (r : qrule) : qexp :=
  match r with
  | Qdirective =>                       (* :17 *)
      rl Qclient_command ∥ rl Qstatement
  | Qclient_command =>                  (* :19-20 *)
      rl Qsp ⋅ PPred MBegin ⋅ chr COLON ⋅ rl Qcommand_body ⋅ PPred MEnd
        ⋅ rl Qhsp ⋅ (chr SEMI ∥ rl Qline_end) ⋅ PAct (ASegment false)
  | Qcommand_body =>                    (* :21-29 *)
      PStar ( rl Qescaped_char
            ∥ PStr [BSL; SEMI]
            ∥ chr BSL ⋅ rl Qhsp ⋅ rl Qline_end
            ∥ rl Qblock_comment
            ∥ rl Qunclosed_block_comment
            ∥ rl Qquoted
            ∥ PNot (chr SEMI ∥ rl Qhsp ⋅ rl Qline_end) ⋅ PDot )
  | Qstatement =>                       (* :31-32 *)
      rl Qsp ⋅ PPred MBegin ⋅ rl Qstatement_body ⋅ PPred MEnd
        ⋅ rl Qsp ⋅ (chr SEMI ∥ rl QEOF) ⋅ PAct (ASegment true)
  | Qstatement_body =>                  (* :33-39 *)
      PStar ( rl Qcomment
            ∥ rl Qquoted
            ∥ rl Qunclosed_block_comment
            ∥ rl Qescaped_char
            ∥ PNot (rl Qsp ⋅ chr SEMI) ⋅ PDot )
  | Qquoted =>                          (* :41 *)
      rl Qsingle_quoted ∥ rl Qdouble_quoted
  | Qsingle_quoted =>                   (* :42 *)
      chr SQ ⋅ PStar (rl Qescaped_char ∥ rl QEOL ∥ PNot (chr SQ) ⋅ PDot)
        ⋅ (chr SQ ∥ rl QEOF)
  | Qdouble_quoted =>                   (* :43 *)
      chr DQ ⋅ PStar (rl Qescaped_char ∥ rl QEOL ∥ PNot (chr DQ) ⋅ PDot)
        ⋅ (chr DQ ∥ rl QEOF)
  | Qescaped_char =>                    (* :45 *)
      chr BSL ⋅ PClass escapable
  | Qsp => PStar (rl QWS ∥ rl Qcomment)                  (* :47 *)
  | Qhsp => PStar (rl QHWS ∥ rl Qblock_comment)          (* :48 *)
  | Qline_end => rl Qline_comment ∥ rl QEOL ∥ rl QEOF    (* :49 *)
  | Qcomment => rl Qline_comment ∥ rl Qblock_comment     (* :51 *)
  | Qline_comment =>                    (* :52 *)
      PStr (B "//") ⋅ PStar (PNot (rl QEOL) ⋅ PDot) ⋅ (rl QEOL ∥ rl QEOF)
  | Qblock_comment =>                   (* :53 *)
      PStr (B "/*") ⋅ PStar (rl QEOL ∥ PNot (PStr (B "*/")) ⋅ PDot) ⋅ PStr (B "*/")
  | Qunclosed_block_comment =>          (* :54 *)
      PStr (B "/*") ⋅ PStar (rl QEOL ∥ PNot (PStr (B "*/")) ⋅ PDot) ⋅ rl QEOF
  | QWS => rl QHWS ∥ rl QEOL                             (* :56 *)
  | QHWS => PClass [SPC; TAB]                            (* :57 *)
  | QEOL => (chr NL ∥ PStr [CR; NL]) ⋅ rl Qline_start    (* :58 *)
  | QEOF => PNot PDot ⋅ PAct AEof                        (* :59 *)
  | Qline_start => PPred MLineStart                      (* :61 *)
  end.

(** User state: __begin, __end and YY_CTX_MEMBERS.line_start_offsets
    (quick_parser.c:90-100), the latter as a stack, last element first. *)
Record quser := mkqu { q_begin : nat; q_end : nat; q_lines : list nat }.

(** quick_parser.c:349-357 backtrack_lines: pop while last > pos *)
Fixpoint backtrack (l : list nat) (p : nat) : list nat :=
  match l with
  | [] => []
  | t :: l' => if Nat.ltb p t then backtrack l' p else l
  end.

(** quick_parser.c:333-346 line_start.  [hd 0]: offsets_last of an empty
    vector is the declared default 0 (quick_parser.c:25 DECLARE_VECTOR, vector.h). *)
Definition line_start (p : nat) (l : list nat) : list nat :=
  let l' := backtrack l p in
  if Nat.eqb (hd 0 l') p then l' else p :: l'.

Definition qprun (q : qpred) (p : nat) (_ : option ascii) (u : quser)
    : option (bool * quser * list qact) :=
  match q with
  | MBegin => Some (true, mkqu p (q_end u) (q_lines u), [])
  | MEnd => Some (true, mkqu (q_begin u) p (q_lines u), [])
  | MLineStart => Some (true, mkqu (q_begin u) (q_end u) (line_start p (q_lines u)), [])
  end.

(** quick_parser.c:360-372: search from the top for a line start <= pos;
    [None]: assert(depth > 0) fails. *)
Fixpoint find_line (l : list nat) (p : nat) : option (nat * nat) :=
  match l with
  | [] => None
  | t :: l' => if Nat.ltb p t then find_line l' p else Some (List.length l, t)
  end.

(** quick_parser.c:360-380 input_position *)
Definition input_position (off : position) (l : list nat) (p : nat) : option position :=
  match find_line l p with
  | None => None
  | Some (depth, ls) =>
      Some (mkpos (depth - 1 + line off)
                  (p - ls + (if Nat.eqb depth 1 then column off else 1))
                  (p + offset off))
  end.

(** quick_parser.c:236-244 struct cypher_quick_parse_segment; [ptr,length) is
    represented by the bytes it denotes during the callback. *)
Record qsegment := mkqseg {
  qs_is_statement : bool;
  qs_text : bytes;
  qs_start : position;
  qs_end : position;
  qs_next : position;
  qs_eof : bool }.

Definition slice (s : bytes) (b e : nat) : bytes := firstn (e - b) (skipn b s).

(** The callback: any function of the segments delivered so far (the last one
    being the current one) to its return value. *)
Definition qcallback := list qsegment -> Z.

(** The state the deferred actions work on. *)
Record qexec := mkqx {
  x_eof : bool;              (* yy->eof *)
  x_result : Z;              (* yy->result *)
  x_off : position;          (* yy->position_offset *)
  x_segs : list qsegment     (* delivered so far, oldest first *) }.

(** quick_parser.c:247-272 segment.  [inp] is the buffer of this round, [p]
    yy->__pos, [u] the final user state.  [None]: failed assert, or
    __end < __begin (length would wrap around). *)
Definition segment (cb : qcallback) (inp : bytes) (p : nat) (u : quser)
    (is_statement : bool) (x : qexec) : option qexec :=
  if Nat.eqb (q_end u) 0 && x_eof x then
    Some (mkqx (x_eof x) 0%Z (x_off x) (x_segs x))
  else
    match input_position (x_off x) (q_lines u) p,
          input_position (x_off x) (q_lines u) (q_end u),
          input_position (x_off x) (q_lines u) (q_begin u) with
    | Some consumed, Some en, Some st =>
        if Nat.ltb (q_end u) (q_begin u) then None else
        let seg := mkqseg is_statement (slice inp (q_begin u) (q_end u))
                          st en consumed (x_eof x) in
        let segs := x_segs x ++ [seg] in
        Some (mkqx (x_eof x) (cb segs) consumed segs)
    | _, _, _ => None
    end.

(** leg: yyDone runs the recorded thunks in order. *)
Definition qstep (cb : qcallback) (inp : bytes) (p : nat) (u : quser)
    (a : qact) (x : qexec) : option qexec :=
  match a with
  | AEof => Some (mkqx true (x_result x) (x_off x) (x_segs x))
  | ASegment b => segment cb inp p u b x
  end.

Fixpoint qdone (cb : qcallback) (inp : bytes) (p : nat) (u : quser)
    (l : list (qact * nat)) (x : qexec) : option qexec :=
  match l with
  | [] => Some x
  | (a, _) :: l' =>
      match qstep cb inp p u a x with
      | None => None
      | Some x' => qdone cb inp p u l' x'
      end
  end.

Definition get_of (inp : bytes) : nat -> option ascii := nth_error inp.

(** leg: yyparsefrom starts with __begin = __end = __pos = 0; the driver
    leaves exactly [0] in line_start_offsets (quick_parser.c:152,185). *)
Definition quser0 : quser := mkqu 0 0 [0].
Definition qst0 : pst qact quser := mkst 0 [] quser0.

Definition qrun (n : nat) (inp : bytes) (e : qexp) (s : pst qact quser) :=
  run QG (get_of inp) qprun n e s.

(** Fuel sufficient for any rule on any input (proved in QuickProofs.v). *)
Definition qfuel (inp : bytes) : nat := S (List.length inp) * 800.

Inductive round_out :=
| RoundOk (consumed : nat) (x : qexec)
| RoundFail                      (* yyparsefrom returned 0 *)
| RoundStuck
| RoundFuel.

(** quick_parser.c:199-211 safe_yyparsefrom + leg's yyparsefrom: match, run
    the deferred actions, then yyCommit drops the consumed bytes. *)
Definition qround (cb : qcallback) (start : qrule) (inp : bytes) (x : qexec) : round_out :=
  match qrun (qfuel inp) inp (PRule start) qst0 with
  | ROk s =>
      match qdone cb inp (pos s) (user s) (rev (thunks s)) x with
      | Some x' => RoundOk (pos s) x'
      | None => RoundStuck
      end
  | RFail _ => RoundFail
  | RStuck => RoundStuck
  | RFuel => RoundFuel
  end.

(** Result of cypher_quick_uparse/fparse: return value and the segments the
    callback saw. *)
Inductive qresult :=
| QRet (ret : Z) (segs : list qsegment)
| QStuck
| QFuel.

(** CYPHER_PARSE_SINGLE, CYPHER_PARSE_ONLY_STATEMENTS *)
Record qflags := mkqf { f_single : bool; f_only_statements : bool }.

(** quick_parser.c:137-196 parse: the for loop.  [n] bounds the rounds. *)
Fixpoint qloop (n : nat) (cb : qcallback) (fl : qflags) (inp : bytes) (x : qexec) : qresult :=
  match n with
  | 0 => QFuel
  | S n =>
      let start := if f_only_statements fl then Qstatement else Qdirective in
      match qround cb start inp x with
      | RoundStuck => QStuck
      | RoundFuel => QFuel
      | RoundFail => QRet (-1) (x_segs x)
      | RoundOk k x' =>
          if (0 <? x_result x')%Z then QRet 0 (x_segs x')
          else if (x_result x' <? 0)%Z then QRet (x_result x') (x_segs x')
          else if x_eof x' || f_single fl then QRet 0 (x_segs x')
          else qloop n cb fl (skipn k inp) x'
      end
  end.

Definition qexec0 : qexec := mkqx false 0%Z position_zero [].

(** quick_parser.c:137-196, given the bytes the source delivers *)
Definition quick_parse (cb : qcallback) (fl : qflags) (inp : bytes) : qresult :=
  qloop (S (List.length inp)) cb fl inp qexec0.
