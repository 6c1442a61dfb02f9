(** * The driver of the Cypher parser

    parser.c:583-813 (parse_each, parse, parse_one), segment.c, result.c. *)
From Coq Require Import List Bool Arith ZArith Ascii String.
From Verif Require Import Peg QuickModel ErrModel CypherSyntax CypherGrammar CypherMatch
  AstTypes AstModel CypherBuild CypherExec.

(** parser_config.h:23-29 struct cypher_parser_config *)
Import ListNotations.

Record config := mkcf {
  cf_position : position;        (* initial_position *)
  cf_ordinal : nat;              (* initial_ordinal *)
  cf_color : coloring }.         (* error_colorization *)

(** parser_config.c:23-27 cypher_parser_std_config *)
Definition std_config : config := mkcf position_zero 0 no_colorization.

Record pflags := mkpf { pf_single : bool; pf_only_statements : bool }.

(** segment.h:24-36.  The directive is a pointer to a node: its identity. *)
Record segment := mkseg {
  s_range : range;
  s_errors : list perror;
  s_roots : list node;
  s_nnodes : nat;
  s_directive : option nat;
  s_eof : bool }.

(** segment.c:24-79 cypher_parse_segment *)
Definition make_segment (ordinal : nat) (r : range) (errs : list perror) (roots : list node)
    (directive : option node) (eof : bool) : segment :=
  let (roots', m) := set_ordinals_all roots ordinal in
  mkseg r errs roots' (m - ordinal) (option_map nid directive) eof.

(** What a call of yyparsefrom leaves for the next one (parser.c:479-495). *)
Record carry := mkcy {
  y_off : position;             (* position_offset *)
  y_op : option oper;           (* op *)
  y_et : etrack;                (* error_tracking *)
  y_ret : option node;          (* leg's yy->__ *)
  y_sb : bytes;                 (* string_buffer *)
  y_consumed : nat;             (* consumed *)
  y_fresh : nat }.

(** parser.c:588-618 *)
Definition carry0 (cf : config) : carry := mkcy (cf_position cf) None et_init None [] 0 0.

(** Fuel sufficient for any rule on any input (CypherRound.cfuel_enough). *)
Definition cfuel (inp : bytes) : nat := S (List.length inp) * (50 * 50).

(** How many bytes of the input are in the buffer (yy->__limit) when the rule
    has matched, given the input and the final position. *)
Definition lookahead := bytes -> nat -> nat.

Inductive pround :=
| RdOk (p : nat) (lines : list nat) (a : astate) (u : cuser)
| RdFail                           (* yyparsefrom returns 0 *)
| RdAssert                         (* an assertion fails *)
| RdInvalid                        (* a constructor's REQUIRE fails *)
| RdUninit                         (* an unwritten value-stack slot is read *)
| RdFuel.

(** parser.c:611-615: the top block *)
Definition top_block (ps : position) : block := mkblk true 0 0 ps ps [] [].

Definition start_rule (fl : pflags) : rule :=
  if pf_only_statements fl then R_statement else R_directive.

(** parser.c:738-776: what parse_one does with the outcome of matching *)
Definition finish_one (cf : config) (la : lookahead) (inp : bytes) (y : carry)
    (m : res action cuser) : pround :=
  match m with
  | RStuck => RdAssert
  | RFuel => RdFuel
  | RFail _ => RdFail
  | ROk s =>
      let u := user s in
      let e := mkxe inp (la inp (pos s)) (y_off y) (c_lines u) (pos s) in
      let a0 := mkas [] (y_ret y) [top_block (cf_position cf)] None [] (y_sb y) None false
                     (y_consumed y) (et_errs (c_et u)) (y_fresh y) [] in
      match exec e (rev (thunks s)) a0 with
      | XAssert => RdAssert
      | XInvalid => RdInvalid
      | XUninit => RdUninit
      | XOk a =>
          match a_blocks a with
          | [b] =>
              if b_top b && negb (nonempty (b_seq b))
                 && match a_prev a with None => true | Some _ => false end
                 && negb (nonempty (a_ops a)) && negb (nonempty (c_precs u))
              then RdOk (pos s) (c_lines u) a u
              else RdAssert
          | _ => RdAssert
          end
      end
  end.

(** the state in which matching starts; the line starts are [0] in each round
    (parser.c:607, 677) *)
Definition match_start (y : carry) : pst action cuser :=
  mkst 0 [] (mkcu [0] [] (y_op y) (y_et y)).

(** parser.c:729-776 parse_one, 779-791 safe_yyparsefrom, leg's yyparsefrom. *)
Definition parse_one (cf : config) (la : lookahead) (r : rule) (inp : bytes) (y : carry) : pround :=
  finish_one cf la inp y
    (crun (cf_color cf) (y_off y) (cfuel inp) inp (PRule r) (match_start y)).

(** The callback: any function of the segments delivered so far (the last one
    being the current one) to its return value. *)
Definition callback := list segment -> Z.

(** Outcome of cypher_uparse_each / cypher_fparse_each: return value, what the
    callback saw, and *last if it was written.  [PFailed]: parse_one failed;
    parse_each then frees the top block a second time (parser.c:765, 690). *)
Inductive presult :=
| PRet (ret : Z) (segs : list segment) (last : option position)
| PFailed
| PAssert
| PInvalid                         (* REQUIRE: abort in a debug build, else EINVAL *)
| PUninit
| PFuel.

(** parser.c:617-684.  [k]: upper bound on the number of rounds; [done]: segments
    delivered, oldest first. *)
Fixpoint ploop (k : nat) (cf : config) (la : lookahead) (cb : callback) (fl : pflags)
    (inp : bytes) (ordinal : nat) (y : carry) (done : list segment) (last : option position)
    : presult :=
  match k with
  | 0 => PFuel
  | S k =>
      match parse_one cf la (start_rule fl) inp y with
      | RdFail => PFailed
      | RdAssert => PAssert
      | RdInvalid => PInvalid
      | RdUninit => PUninit
      | RdFuel => PFuel
      | RdOk p lines a u =>
          if Nat.eqb (a_consumed a) 0 then
            (* parser.c:624-630 *)
            if match a_result a with None => true | Some _ => false end
               && negb (nonempty (a_errs a)) && a_eof a
            then PRet 0 done last else PAssert
          else
            match input_position (y_off y) lines (a_consumed a) with
            | None => PAssert
            | Some en =>
                let roots := match a_blocks a with b :: _ => b_kids b | [] => [] end in
                let seg := make_segment ordinal (mkrange (y_off y) en) (a_errs a) roots
                             (a_result a) (a_eof a) in
                let done' := done ++ [seg] in
                let err := cb done' in
                if (0 <? err)%Z then PRet 0 done' (Some en)
                else if (err <? 0)%Z then PRet err done' (Some en)
                else if a_eof a || pf_single fl then PRet 0 done' (Some en)
                else
                  ploop k cf la cb fl (skipn p inp) (ordinal + s_nnodes seg)
                    (mkcy en (c_op u) (et_clear_errors (et_clear_potentials (c_et u)))
                          (a_ret a) (a_sb a) (a_consumed a) (a_fresh a))
                    done' (Some en)
            end
      end
  end.

(** parser.c:583-698 parse_each *)
Definition parse_each (cf : config) (la : lookahead) (cb : callback) (fl : pflags) (inp : bytes)
    : presult :=
  ploop (S (List.length inp)) cf la cb fl inp (cf_ordinal cf) (carry0 cf) [] None.

(** result.h:25-39 struct cypher_parse_result *)
Record result := mkres {
  pr_roots : list node;
  pr_nnodes : nat;
  pr_errors : list perror;
  pr_directives : list nat;
  pr_eof : bool }.

(** calloc *)
Definition result0 : result := mkres [] 0 [] [] false.

(** result.c:89-153 cp_result_merge_segment *)
Definition merge_segment (r : result) (s : segment) : result :=
  mkres (pr_roots r ++ s_roots s) (pr_nnodes r + s_nnodes s) (pr_errors r ++ s_errors s)
        (pr_directives r ++ match s_directive s with Some d => [d] | None => [] end)
        (pr_eof r || (s_eof s && (match s_directive s with Some _ => true | None => false end
                                  || nonempty (s_errors s)))).

(** parser.c:701-726: parse_all_callback merges each segment and returns 0 *)
Inductive presult_all :=
| ARes (r : result) (last : option position)
| ANone                              (* NULL is returned *)
| ABad (p : presult).                (* assertion, uninitialised read, double free *)

Definition parse_all (cf : config) (la : lookahead) (fl : pflags) (inp : bytes) : presult_all :=
  match parse_each cf la (fun _ => 0%Z) fl inp with
  | PRet 0%Z segs last => ARes (fold_left merge_segment segs result0) last
  | PRet _ _ _ => ANone
  | p => ABad p
  end.
