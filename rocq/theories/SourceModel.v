(** * The two parsers reading from a source

    quick_parser.c:137-211 and parser.c:583-791 as in QuickModel.v and CypherParse.v, but with
    the bytes fetched on demand (BufModel.v) instead of given.  [fuel] bounds the steps of one
    call of yyparsefrom; the theorems use the same amount as the models they refer to. *)
From Coq Require Import List Bool Arith ZArith.
From Verif Require Import Peg BufModel QuickModel ErrModel CypherSyntax CypherGrammar CypherMatch
  AstTypes AstModel CypherBuild CypherExec CypherParse.
Import ListNotations.

Section Drivers.
Context {T : Type}.
Variable src : source T.

(** ** The quick parser *)

(** QuickModel.qround; the actions see the buffer as it is when the rule has matched. *)
Definition bqround (fuel : nat) (cb : qcallback) (start : qrule) (b : buf T) (x : qexec)
    : round_out * buf T :=
  match brun src QG qprun fuel (PRule start) qst0 b with
  | BOk s b' =>
      match qdone cb (m_data b') (pos s) (user s) (rev (thunks s)) x with
      | Some x' => (RoundOk (pos s) x', commit (pos s) b')
      | None => (RoundStuck, b')
      end
  | BFail _ b' => (RoundFail, b')
  | BStuck => (RoundStuck, b)
  | BFuel => (RoundFuel, b)
  end.

(** QuickModel.qloop *)
Fixpoint bqloop (n fuel : nat) (cb : qcallback) (fl : qflags) (b : buf T) (x : qexec) : qresult :=
  match n with
  | 0 => QFuel
  | S n =>
      let start := if f_only_statements fl then Qstatement else Qdirective in
      match bqround fuel cb start b x with
      | (RoundStuck, _) => QStuck
      | (RoundFuel, _) => QFuel
      | (RoundFail, _) => QRet (-1) (x_segs x)
      | (RoundOk k x', b') =>
          if (0 <? x_result x')%Z then QRet 0 (x_segs x')
          else if (x_result x' <? 0)%Z then QRet (x_result x') (x_segs x')
          else if x_eof x' || f_single fl then QRet 0 (x_segs x')
          else bqloop n fuel cb fl b' x'
      end
  end.

(** quick_parser.c:137-196 parse *)
Definition quick_parse_from (n fuel : nat) (cb : qcallback) (fl : qflags) (s : T) : qresult :=
  bqloop n fuel cb fl (buf0 s) qexec0.

(** ** The parser *)

(** CypherParse.parse_one; error contexts come from what is in the buffer. *)
Definition bparse_one (fuel : nat) (cf : config) (r : rule) (b : buf T) (y : carry)
    : pround * buf T :=
  match brun src CG (cprun (cf_color cf) (y_off y)) fuel (PRule r) (match_start y) b with
  | BOk s b' =>
      (finish_one cf (fun inp _ => List.length inp) (m_data b') y (ROk s), commit (pos s) b')
  | BFail _ b' => (RdFail, b')
  | BStuck => (RdAssert, b)
  | BFuel => (RdFuel, b)
  end.

(** CypherParse.ploop *)
Fixpoint bploop (k fuel : nat) (cf : config) (cb : callback) (fl : pflags)
    (b : buf T) (ordinal : nat) (y : carry) (done : list segment) (last : option position)
    : presult :=
  match k with
  | 0 => PFuel
  | S k =>
      match bparse_one fuel cf (start_rule fl) b y with
      | (RdFail, _) => PFailed
      | (RdAssert, _) => PAssert
      | (RdInvalid, _) => PInvalid
      | (RdUninit, _) => PUninit
      | (RdFuel, _) => PFuel
      | (RdOk p lines a u, b') =>
          if Nat.eqb (a_consumed a) 0 then
            if match a_result a with None => true | Some _ => false end
               && negb (nonempty (a_errs a)) && a_eof a
            then PRet 0 done last else PAssert
          else
            match input_position (y_off y) lines (a_consumed a) with
            | None => PAssert
            | Some en =>
                let roots := match a_blocks a with b :: _ => b_kids b | [] => [] end in
                let seg := make_segment ordinal (mkrange (y_off y) en) (a_errs a) roots
                             (a_result a) (a_eof a) in
                let done' := done ++ [seg] in
                let err := cb done' in
                if (0 <? err)%Z then PRet 0 done' (Some en)
                else if (err <? 0)%Z then PRet err done' (Some en)
                else if a_eof a || pf_single fl then PRet 0 done' (Some en)
                else
                  bploop k fuel cf cb fl b' (ordinal + s_nnodes seg)
                    (mkcy en (c_op u) (et_clear_errors (et_clear_potentials (c_et u)))
                          (a_ret a) (a_sb a) (a_consumed a) (a_fresh a))
                    done' (Some en)
            end
      end
  end.

(** parser.c:583-698 parse_each *)
Definition parse_each_from (k fuel : nat) (cf : config) (cb : callback) (fl : pflags) (s : T)
    : presult :=
  bploop k fuel cf cb fl (buf0 s) (cf_ordinal cf) (carry0 cf) [] None.

End Drivers.

(** ** The entry points (parser.c:542-580, quick_parser.c:70-85).  The bounds on steps and rounds
    are those of the whole input. *)

Definition cypher_quick_fparse (cb : qcallback) (fl : qflags) (stream : bytes) : qresult :=
  quick_parse_from source_from_stream (S (List.length stream)) (qfuel stream) cb fl stream.

Definition cypher_quick_uparse (cb : qcallback) (fl : qflags) (s : bytes) : qresult :=
  quick_parse_from source_from_buffer (S (List.length s)) (qfuel s) cb fl
    (mkbs s (List.length s)).

Definition cypher_fparse_each (cf : config) (cb : callback) (fl : pflags) (stream : bytes)
    : presult :=
  parse_each_from source_from_stream (S (List.length stream)) (cfuel stream) cf cb fl stream.

Definition cypher_uparse_each (cf : config) (cb : callback) (fl : pflags) (s : bytes) : presult :=
  parse_each_from source_from_buffer (S (List.length s)) (cfuel s) cf cb fl
    (mkbs s (List.length s)).
