(** * The model against the library's own tests

    Every call of cypher_parse in lib/test/check_*.c but the one in
    check_annotation.c, with the AST print-out,
    the final position, the numbers of errors and directives, end of file,
    error messages, positions and contexts the C test asserts.  Generated from
    the tests.  This tests the model; it proves no property.  The
    outcomes are computed when the file is built, and the build fails if one of
    them is not the expected one. *)
From Coq Require Import List Bool Arith ZArith Ascii String.
From Verif Require Import Peg QuickModel ErrModel CypherSyntax AstTypes AstModel CypherBuild CypherExec CypherParse DetailModel PrintModel.
Import ListNotations.

Record expectation := mkx {
  x_inp : bytes; x_single : bool;
  x_ast : bytes;                 (* cypher_parse_result_fprint_ast, width 0 *)
  x_last : option nat;           (* last.offset *)
  x_nerr : option nat; x_ndir : option nat; x_eof : option bool;
  x_msgs : list bytes; x_pos : list nat; x_ctx : list bytes }.

Definition opt_ok {X} (f : X -> bool) (o : option X) := match o with None => true | Some x => f x end.
Definition conforms (x : expectation) : bool :=
  match parse_all std_config (fun inp _ => List.length inp) (mkpf (x_single x) false) (x_inp x) with
  | ARes r last =>
      let out := match fprintv 0 "x"%char (forest_ord (pr_roots r)) ac_none 0 (pr_roots r) (repeat "j"%char fprint_bufcap) with Some o => o | None => B "UB" end in
      (bytes_eqb out (x_ast x)
      && opt_ok (fun n => Nat.eqb n (match last with Some p => offset p | None => 0 end)) (x_last x)
      && opt_ok (fun n => Nat.eqb n (List.length (pr_errors r))) (x_nerr x)
      && opt_ok (fun n => Nat.eqb n (List.length (pr_directives r))) (x_ndir x)
      && opt_ok (Bool.eqb (pr_eof r)) (x_eof x)
      && (List.length (x_msgs x) <=? List.length (pr_errors r))
      && forallb (fun p => bytes_eqb (fst p) (snd p)) (combine (x_msgs x) (map pe_msg (pr_errors r)))
      && forallb (fun p => Nat.eqb (fst p) (snd p)) (combine (x_pos x) (map (fun e => offset (pe_pos e)) (pr_errors r)))
      && forallb (fun p => bytes_eqb (fst p) (snd p)) (combine (x_ctx x) (map (fun e => match pe_ctx e with Some (c,_) => c | None => [] end) (pr_errors r))))
  | ANone => false
  | ABad _ => false
  end.
(** lib/test/check_call.c *)
Definition check_call : list expectation := [
  (* parse_simple_call *)
  mkx (B "CALL foo. bar.baz();") false
    (B "@0  0..20  statement        body=@1" ++ ["010"%char] ++ B "@1  0..20  > query          clauses=[@2]" ++ ["010"%char] ++ B "@2  0..19  > > CALL         name=@3" ++ ["010"%char] ++ B "@3  5..17  > > > proc name  `foo.bar.baz`" ++ ["010"%char])
    (Some 20) None None None [] [] [];
  (* parse_call_with_args *)
  mkx (B "CALL foo.bar.baz(1+n, 'foo');") false
    (B "@0   0..29  statement              body=@1" ++ ["010"%char] ++ B "@1   0..29  > query                clauses=[@2]" ++ ["010"%char] ++ B "@2   0..28  > > CALL               name=@3, args=[@4, @7]" ++ ["010"%char] ++ B "@3   5..16  > > > proc name        `foo.bar.baz`" ++ ["010"%char] ++ B "@4  17..20  > > > binary operator  @5 + @6" ++ ["010"%char] ++ B "@5  17..18  > > > > integer        1" ++ ["010"%char] ++ B "@6  19..20  > > > > identifier     `n`" ++ ["010"%char] ++ B "@7  22..27  > > > string           ""foo""" ++ ["010"%char])
    (Some 29) None None None [] [] [];
  (* parse_call_with_projections *)
  mkx (B "CALL foo.bar.baz(1, 2) YIELD a AS x, b AS y;") false
    (B " @0   0..44  statement           body=@1" ++ ["010"%char] ++ B " @1   0..44  > query             clauses=[@2]" ++ ["010"%char] ++ B " @2   0..43  > > CALL            name=@3, args=[@4, @5], YIELD=[@6, @9]" ++ ["010"%char] ++ B " @3   5..16  > > > proc name     `foo.bar.baz`" ++ ["010"%char] ++ B " @4  17..18  > > > integer       1" ++ ["010"%char] ++ B " @5  20..21  > > > integer       2" ++ ["010"%char] ++ B " @6  29..35  > > > projection    expression=@7, alias=@8" ++ ["010"%char] ++ B " @7  29..30  > > > > identifier  `a`" ++ ["010"%char] ++ B " @8  34..35  > > > > identifier  `x`" ++ ["010"%char] ++ B " @9  37..43  > > > projection    expression=@10, alias=@11" ++ ["010"%char] ++ B "@10  37..38  > > > > identifier  `b`" ++ ["010"%char] ++ B "@11  42..43  > > > > identifier  `y`" ++ ["010"%char])
    (Some 44) None None None [] [] [];
  (* parse_call_with_blank_projection *)
  mkx (B "CALL foo.bar.baz(1, 2) YIELD -;") false
    (B "@0   0..31  statement        body=@1" ++ ["010"%char] ++ B "@1   0..31  > query          clauses=[@2]" ++ ["010"%char] ++ B "@2   0..30  > > CALL         name=@3, args=[@4, @5]" ++ ["010"%char] ++ B "@3   5..16  > > > proc name  `foo.bar.baz`" ++ ["010"%char] ++ B "@4  17..18  > > > integer    1" ++ ["010"%char] ++ B "@5  20..21  > > > integer    2" ++ ["010"%char])
    (Some 31) None None None [] [] [];
  (* parse_call_with_predicate *)
  mkx (B "CALL foo.bar.baz(1, 2) YIELD a WHERE a = 5;") false
    (B " @0   0..43  statement              body=@1" ++ ["010"%char] ++ B " @1   0..43  > query                clauses=[@2]" ++ ["010"%char] ++ B " @2   0..42  > > CALL               name=@3, args=[@4, @5], YIELD=[@6], WHERE=@8" ++ ["010"%char] ++ B " @3   5..16  > > > proc name        `foo.bar.baz`" ++ ["010"%char] ++ B " @4  17..18  > > > integer          1" ++ ["010"%char] ++ B " @5  20..21  > > > integer          2" ++ ["010"%char] ++ B " @6  29..31  > > > projection       expression=@7" ++ ["010"%char] ++ B " @7  29..30  > > > > identifier     `a`" ++ ["010"%char] ++ B " @8  37..42  > > > binary operator  @9 = @10" ++ ["010"%char] ++ B " @9  37..38  > > > > identifier     `a`" ++ ["010"%char] ++ B "@10  41..42  > > > > integer        5" ++ ["010"%char])
    (Some 43) None None None [] [] []].
Definition check_call_outcome : list bool := Eval vm_compute in map conforms check_call.
Example check_call_conforms : check_call_outcome = map (fun _ => true) check_call.
Proof. reflexivity. Qed.

(** lib/test/check_case.c *)
Definition check_case : list expectation := [
  (* parse_simple_case *)
  mkx (B "RETURN CASE x WHEN 1 THEN y WHEN 2 THEN z ELSE d END AS r") false
    (B " @0   0..57  statement             body=@1" ++ ["010"%char] ++ B " @1   0..57  > query               clauses=[@2]" ++ ["010"%char] ++ B " @2   0..57  > > RETURN            projections=[@3]" ++ ["010"%char] ++ B " @3   7..57  > > > projection      expression=@4, alias=@11" ++ ["010"%char] ++ B " @4   7..52  > > > > case          expression=@5, alternatives=[(@6:@7), (@8:@9)], default=@10" ++ ["010"%char] ++ B " @5  12..13  > > > > > identifier  `x`" ++ ["010"%char] ++ B " @6  19..20  > > > > > integer     1" ++ ["010"%char] ++ B " @7  26..27  > > > > > identifier  `y`" ++ ["010"%char] ++ B " @8  33..34  > > > > > integer     2" ++ ["010"%char] ++ B " @9  40..41  > > > > > identifier  `z`" ++ ["010"%char] ++ B "@10  47..48  > > > > > identifier  `d`" ++ ["010"%char] ++ B "@11  56..57  > > > > identifier    `r`" ++ ["010"%char])
    (Some 57) None None None [] [] [];
  (* parse_simple_case_without_default *)
  mkx (B "RETURN CASE x WHEN 1 THEN y WHEN 2 THEN z END AS r") false
    (B " @0   0..50  statement             body=@1" ++ ["010"%char] ++ B " @1   0..50  > query               clauses=[@2]" ++ ["010"%char] ++ B " @2   0..50  > > RETURN            projections=[@3]" ++ ["010"%char] ++ B " @3   7..50  > > > projection      expression=@4, alias=@10" ++ ["010"%char] ++ B " @4   7..45  > > > > case          expression=@5, alternatives=[(@6:@7), (@8:@9)]" ++ ["010"%char] ++ B " @5  12..13  > > > > > identifier  `x`" ++ ["010"%char] ++ B " @6  19..20  > > > > > integer     1" ++ ["010"%char] ++ B " @7  26..27  > > > > > identifier  `y`" ++ ["010"%char] ++ B " @8  33..34  > > > > > integer     2" ++ ["010"%char] ++ B " @9  40..41  > > > > > identifier  `z`" ++ ["010"%char] ++ B "@10  49..50  > > > > identifier    `r`" ++ ["010"%char])
    (Some 50) None None None [] [] [];
  (* parse_generic_case *)
  mkx (B "RETURN CASE WHEN x=1 THEN y WHEN x=2 THEN z ELSE d END AS r") false
    (B " @0   0..59  statement                  body=@1" ++ ["010"%char] ++ B " @1   0..59  > query                    clauses=[@2]" ++ ["010"%char] ++ B " @2   0..59  > > RETURN                 projections=[@3]" ++ ["010"%char] ++ B " @3   7..59  > > > projection           expression=@4, alias=@14" ++ ["010"%char] ++ B " @4   7..54  > > > > case               alternatives=[(@5:@8), (@9:@12)], default=@13" ++ ["010"%char] ++ B " @5  17..21  > > > > > binary operator  @6 = @7" ++ ["010"%char] ++ B " @6  17..18  > > > > > > identifier     `x`" ++ ["010"%char] ++ B " @7  19..20  > > > > > > integer        1" ++ ["010"%char] ++ B " @8  26..27  > > > > > identifier       `y`" ++ ["010"%char] ++ B " @9  33..37  > > > > > binary operator  @10 = @11" ++ ["010"%char] ++ B "@10  33..34  > > > > > > identifier     `x`" ++ ["010"%char] ++ B "@11  35..36  > > > > > > integer        2" ++ ["010"%char] ++ B "@12  42..43  > > > > > identifier       `z`" ++ ["010"%char] ++ B "@13  49..50  > > > > > identifier       `d`" ++ ["010"%char] ++ B "@14  58..59  > > > > identifier         `r`" ++ ["010"%char])
    (Some 59) None None None [] [] [];
  (* parse_generic_case_without_default *)
  mkx (B "RETURN CASE WHEN x=1 THEN y WHEN x=2 THEN z END AS r") false
    (B " @0   0..52  statement                  body=@1" ++ ["010"%char] ++ B " @1   0..52  > query                    clauses=[@2]" ++ ["010"%char] ++ B " @2   0..52  > > RETURN                 projections=[@3]" ++ ["010"%char] ++ B " @3   7..52  > > > projection           expression=@4, alias=@13" ++ ["010"%char] ++ B " @4   7..47  > > > > case               alternatives=[(@5:@8), (@9:@12)]" ++ ["010"%char] ++ B " @5  17..21  > > > > > binary operator  @6 = @7" ++ ["010"%char] ++ B " @6  17..18  > > > > > > identifier     `x`" ++ ["010"%char] ++ B " @7  19..20  > > > > > > integer        1" ++ ["010"%char] ++ B " @8  26..27  > > > > > identifier       `y`" ++ ["010"%char] ++ B " @9  33..37  > > > > > binary operator  @10 = @11" ++ ["010"%char] ++ B "@10  33..34  > > > > > > identifier     `x`" ++ ["010"%char] ++ B "@11  35..36  > > > > > > integer        2" ++ ["010"%char] ++ B "@12  42..43  > > > > > identifier       `z`" ++ ["010"%char] ++ B "@13  51..52  > > > > identifier         `r`" ++ ["010"%char])
    (Some 52) None None None [] [] []].
Definition check_case_outcome : list bool := Eval vm_compute in map conforms check_case.
Example check_case_conforms : check_case_outcome = map (fun _ => true) check_case.
Proof. reflexivity. Qed.

(** lib/test/check_command.c *)
Definition check_command : list expectation := [
  (* parse_single_command_with_no_args *)
  mkx (B ":hunter" ++ ["010"%char]) false
    (B "@0  0..7  command   name=@1, args=[]" ++ ["010"%char] ++ B "@1  1..7  > string  ""hunter""" ++ ["010"%char])
    (Some 8) None (Some 1) None [] [] [];
  (* parse_single_command_with_args *)
  mkx (B ":hunter s thompson" ++ ["010"%char]) false
    (B "@0   0..18  command   name=@1, args=[@2, @3]" ++ ["010"%char] ++ B "@1   1..7   > string  ""hunter""" ++ ["010"%char] ++ B "@2   8..9   > string  ""s""" ++ ["010"%char] ++ B "@3  10..18  > string  ""thompson""" ++ ["010"%char])
    (Some 19) None (Some 1) None [] [] [];
  (* parse_single_command_with_quoted_args *)
  mkx (B ":thompson 'hunter s'" ++ ["010"%char]) false
    (B "@0   0..20  command   name=@1, args=[@2]" ++ ["010"%char] ++ B "@1   1..9   > string  ""thompson""" ++ ["010"%char] ++ B "@2  10..20  > string  ""hunter s""" ++ ["010"%char])
    (Some 21) None (Some 1) None [] [] [];
  (* parse_single_command_with_partial_quoted_args *)
  mkx (B ":thompson lastname='hunter s'" ++ ["010"%char]) false
    (B "@0   0..29  command   name=@1, args=[@2]" ++ ["010"%char] ++ B "@1   1..9   > string  ""thompson""" ++ ["010"%char] ++ B "@2  10..29  > string  ""lastname=hunter s""" ++ ["010"%char])
    (Some 30) None (Some 1) None [] [] [];
  (* parse_multiple_commands *)
  mkx (B ":hunter" ++ ["010"%char] ++ B ":s;:thompson // loathing") false
    (B "@0   0..7   command       name=@1, args=[]" ++ ["010"%char] ++ B "@1   1..7   > string      ""hunter""" ++ ["010"%char] ++ B "@2   8..10  command       name=@3, args=[]" ++ ["010"%char] ++ B "@3   9..10  > string      ""s""" ++ ["010"%char] ++ B "@4  11..21  command       name=@5, args=[]" ++ ["010"%char] ++ B "@5  12..20  > string      ""thompson""" ++ ["010"%char] ++ B "@6  23..32  line_comment  // loathing" ++ ["010"%char])
    None None None None [] [] [];
  (* parse_multiline_command *)
  mkx (B ":hunter \ //firstname" ++ ["010"%char] ++ B "s \" ++ ["010"%char] ++ B "  \" ++ ["010"%char] ++ B " thompson //lastname" ++ ["010"%char]) false
    (B "@0   0..40  command         name=@1, args=[@3, @4]" ++ ["010"%char] ++ B "@1   1..7   > string        ""hunter""" ++ ["010"%char] ++ B "@2  12..21  > line_comment  //firstname" ++ ["010"%char] ++ B "@3  22..23  > string        ""s""" ++ ["010"%char] ++ B "@4  31..39  > string        ""thompson""" ++ ["010"%char] ++ B "@5  42..50  line_comment    //lastname" ++ ["010"%char])
    None None None None [] [] [];
  (* parse_command_with_escape_chars *)
  mkx (B ":hunter\;s\""thom\\""pson;""" ++ ["010"%char]) false
    (B "@0  0..25  command   name=@1, args=[]" ++ ["010"%char] ++ B "@1  1..25  > string  ""hunter;s""thom\pson;""" ++ ["010"%char])
    None None None None [] [] [];
  (* parse_command_with_block_comment *)
  mkx (B ":hunter /*;s" ++ ["010"%char] ++ B "*/thompson" ++ ["010"%char]) false
    (B "@0   0..23  command          name=@1, args=[@3]" ++ ["010"%char] ++ B "@1   1..7   > string         ""hunter""" ++ ["010"%char] ++ B "@2  10..13  > block_comment  /*;s\n*/" ++ ["010"%char] ++ B "@3  15..23  > string         ""thompson""" ++ ["010"%char])
    None None None None [] [] [];
  (* parse_command_with_line_comment *)
  mkx (B ":hunter //;s" ++ ["010"%char] ++ B ":thompson ""fear /*""" ++ ["010"%char] ++ B ":and ""*/loathing""") false
    (B "@0   0..8   command       name=@1, args=[]" ++ ["010"%char] ++ B "@1   1..7   > string      ""hunter""" ++ ["010"%char] ++ B "@2  10..12  line_comment  //;s" ++ ["010"%char] ++ B "@3  13..32  command       name=@4, args=[@5]" ++ ["010"%char] ++ B "@4  14..22  > string      ""thompson""" ++ ["010"%char] ++ B "@5  23..32  > string      ""fear /*""" ++ ["010"%char] ++ B "@6  33..50  command       name=@7, args=[@8]" ++ ["010"%char] ++ B "@7  34..37  > string      ""and""" ++ ["010"%char] ++ B "@8  38..50  > string      ""*/loathing""" ++ ["010"%char])
    None None None None [] [] []].
Definition check_command_outcome : list bool := Eval vm_compute in map conforms check_command.
Example check_command_conforms : check_command_outcome = map (fun _ => true) check_command.
Proof. reflexivity. Qed.

(** lib/test/check_constraints.c *)
Definition check_constraints : list expectation := [
  (* parse_create_unique_node_prop_constraint *)
  mkx (B "CREATE CONSTRAINT ON (f:Foo) ASSERT f.bar IS UNIQUE;") false
    (B "@0   0..52  statement                      body=@1" ++ ["010"%char] ++ B "@1   0..51  > create node prop constraint  ON=(@2:@3), expression=@4, IS UNIQUE" ++ ["010"%char] ++ B "@2  22..23  > > identifier                 `f`" ++ ["010"%char] ++ B "@3  23..27  > > label                      :`Foo`" ++ ["010"%char] ++ B "@4  36..42  > > property                   @5.@6" ++ ["010"%char] ++ B "@5  36..37  > > > identifier               `f`" ++ ["010"%char] ++ B "@6  38..41  > > > prop name                `bar`" ++ ["010"%char])
    (Some 52) None (Some 1) None [] [] [];
  (* parse_drop_unique_node_prop_constraint *)
  mkx (B "DROP CONSTRAINT ON (f:Foo) ASSERT f.bar IS UNIQUE;") false
    (B "@0   0..50  statement                    body=@1" ++ ["010"%char] ++ B "@1   0..49  > drop node prop constraint  ON=(@2:@3), expression=@4, IS UNIQUE" ++ ["010"%char] ++ B "@2  20..21  > > identifier               `f`" ++ ["010"%char] ++ B "@3  21..25  > > label                    :`Foo`" ++ ["010"%char] ++ B "@4  34..40  > > property                 @5.@6" ++ ["010"%char] ++ B "@5  34..35  > > > identifier             `f`" ++ ["010"%char] ++ B "@6  36..39  > > > prop name              `bar`" ++ ["010"%char])
    (Some 50) None (Some 1) None [] [] [];
  (* parse_create_node_prop_constraint *)
  mkx (B "CREATE CONSTRAINT ON (f:Foo) ASSERT exists(f.bar);") false
    (B "@0   0..50  statement                      body=@1" ++ ["010"%char] ++ B "@1   0..49  > create node prop constraint  ON=(@2:@3), expression=@4" ++ ["010"%char] ++ B "@2  22..23  > > identifier                 `f`" ++ ["010"%char] ++ B "@3  23..27  > > label                      :`Foo`" ++ ["010"%char] ++ B "@4  36..49  > > apply                      @5(@6)" ++ ["010"%char] ++ B "@5  36..42  > > > function name            `exists`" ++ ["010"%char] ++ B "@6  43..48  > > > property                 @7.@8" ++ ["010"%char] ++ B "@7  43..44  > > > > identifier             `f`" ++ ["010"%char] ++ B "@8  45..48  > > > > prop name              `bar`" ++ ["010"%char])
    (Some 50) None (Some 1) None [] [] [];
  (* parse_drop_node_prop_constraint *)
  mkx (B "DROP CONSTRAINT ON (f:Foo) ASSERT exists(f.bar);") false
    (B "@0   0..48  statement                    body=@1" ++ ["010"%char] ++ B "@1   0..47  > drop node prop constraint  ON=(@2:@3), expression=@4" ++ ["010"%char] ++ B "@2  20..21  > > identifier               `f`" ++ ["010"%char] ++ B "@3  21..25  > > label                    :`Foo`" ++ ["010"%char] ++ B "@4  34..47  > > apply                    @5(@6)" ++ ["010"%char] ++ B "@5  34..40  > > > function name          `exists`" ++ ["010"%char] ++ B "@6  41..46  > > > property               @7.@8" ++ ["010"%char] ++ B "@7  41..42  > > > > identifier           `f`" ++ ["010"%char] ++ B "@8  43..46  > > > > prop name            `bar`" ++ ["010"%char])
    (Some 48) None (Some 1) None [] [] [];
  (* parse_create_rel_prop_constraint *)
  mkx (B "CREATE CONSTRAINT ON ()-[f:Foo]-() ASSERT exists(f.bar);") false
    (B "@0   0..56  statement                     body=@1" ++ ["010"%char] ++ B "@1   0..55  > create rel prop constraint  ON=(@2:@3), expression=@4" ++ ["010"%char] ++ B "@2  25..26  > > identifier                `f`" ++ ["010"%char] ++ B "@3  26..30  > > rel type                  :`Foo`" ++ ["010"%char] ++ B "@4  42..55  > > apply                     @5(@6)" ++ ["010"%char] ++ B "@5  42..48  > > > function name           `exists`" ++ ["010"%char] ++ B "@6  49..54  > > > property                @7.@8" ++ ["010"%char] ++ B "@7  49..50  > > > > identifier            `f`" ++ ["010"%char] ++ B "@8  51..54  > > > > prop name             `bar`" ++ ["010"%char])
    (Some 56) None (Some 1) None [] [] [];
  (* parse_drop_rel_prop_constraint *)
  mkx (B "DROP CONSTRAINT ON ()-[f:Foo]-() ASSERT exists(f.bar);") false
    (B "@0   0..54  statement                   body=@1" ++ ["010"%char] ++ B "@1   0..53  > drop rel prop constraint  ON=(@2:@3), expression=@4" ++ ["010"%char] ++ B "@2  23..24  > > identifier              `f`" ++ ["010"%char] ++ B "@3  24..28  > > rel type                :`Foo`" ++ ["010"%char] ++ B "@4  40..53  > > apply                   @5(@6)" ++ ["010"%char] ++ B "@5  40..46  > > > function name         `exists`" ++ ["010"%char] ++ B "@6  47..52  > > > property              @7.@8" ++ ["010"%char] ++ B "@7  47..48  > > > > identifier          `f`" ++ ["010"%char] ++ B "@8  49..52  > > > > prop name           `bar`" ++ ["010"%char])
    (Some 54) None (Some 1) None [] [] []].
Definition check_constraints_outcome : list bool := Eval vm_compute in map conforms check_constraints.
Example check_constraints_conforms : check_constraints_outcome = map (fun _ => true) check_constraints.
Proof. reflexivity. Qed.

(** lib/test/check_create.c *)
Definition check_create : list expectation := [
  (* parse_simple_create *)
  mkx (B "CREATE (n)-[:KNOWS]->(f);") false
    (B " @0   0..25  statement               body=@1" ++ ["010"%char] ++ B " @1   0..25  > query                 clauses=[@2]" ++ ["010"%char] ++ B " @2   0..24  > > CREATE              pattern=@3" ++ ["010"%char] ++ B " @3   7..24  > > > pattern           paths=[@4]" ++ ["010"%char] ++ B " @4   7..24  > > > > pattern path    (@5)-[@7]-(@9)" ++ ["010"%char] ++ B " @5   7..10  > > > > > node pattern  (@6)" ++ ["010"%char] ++ B " @6   8..9   > > > > > > identifier  `n`" ++ ["010"%char] ++ B " @7  10..21  > > > > > rel pattern   -[:@8]->" ++ ["010"%char] ++ B " @8  12..18  > > > > > > rel type    :`KNOWS`" ++ ["010"%char] ++ B " @9  21..24  > > > > > node pattern  (@10)" ++ ["010"%char] ++ B "@10  22..23  > > > > > > identifier  `f`" ++ ["010"%char])
    (Some 25) None None None [] [] [];
  (* parse_create_unique *)
  mkx (B "CREATE UNIQUE (n)-[:KNOWS]->(f);") false
    (B " @0   0..32  statement               body=@1" ++ ["010"%char] ++ B " @1   0..32  > query                 clauses=[@2]" ++ ["010"%char] ++ B " @2   0..31  > > CREATE              UNIQUE, pattern=@3" ++ ["010"%char] ++ B " @3  14..31  > > > pattern           paths=[@4]" ++ ["010"%char] ++ B " @4  14..31  > > > > pattern path    (@5)-[@7]-(@9)" ++ ["010"%char] ++ B " @5  14..17  > > > > > node pattern  (@6)" ++ ["010"%char] ++ B " @6  15..16  > > > > > > identifier  `n`" ++ ["010"%char] ++ B " @7  17..28  > > > > > rel pattern   -[:@8]->" ++ ["010"%char] ++ B " @8  19..25  > > > > > > rel type    :`KNOWS`" ++ ["010"%char] ++ B " @9  28..31  > > > > > node pattern  (@10)" ++ ["010"%char] ++ B "@10  29..30  > > > > > > identifier  `f`" ++ ["010"%char])
    (Some 32) None None None [] [] []].
Definition check_create_outcome : list bool := Eval vm_compute in map conforms check_create.
Example check_create_conforms : check_create_outcome = map (fun _ => true) check_create.
Proof. reflexivity. Qed.

(** lib/test/check_delete.c *)
Definition check_delete : list expectation := [
  (* parse_delete *)
  mkx (B "/*MATCH*/ DELETE n, CASE WHEN exists(n.foo) THEN m ELSE n END;") false
    (B " @0   2..7   block_comment            /*MATCH*/" ++ ["010"%char] ++ B " @1  10..62  statement                body=@2" ++ ["010"%char] ++ B " @2  10..62  > query                  clauses=[@3]" ++ ["010"%char] ++ B " @3  10..61  > > DELETE               expressions=[@4, @5]" ++ ["010"%char] ++ B " @4  17..18  > > > identifier         `n`" ++ ["010"%char] ++ B " @5  20..61  > > > case               alternatives=[(@6:@11)], default=@12" ++ ["010"%char] ++ B " @6  30..43  > > > > apply            @7(@8)" ++ ["010"%char] ++ B " @7  30..36  > > > > > function name  `exists`" ++ ["010"%char] ++ B " @8  37..42  > > > > > property       @9.@10" ++ ["010"%char] ++ B " @9  37..38  > > > > > > identifier   `n`" ++ ["010"%char] ++ B "@10  39..42  > > > > > > prop name    `foo`" ++ ["010"%char] ++ B "@11  49..50  > > > > identifier       `m`" ++ ["010"%char] ++ B "@12  56..57  > > > > identifier       `n`" ++ ["010"%char])
    (Some 62) None None None [] [] [];
  (* parse_detach_delete *)
  mkx (B "/*MATCH*/ DETACH DELETE n, CASE WHEN exists(n.foo) THEN m ELSE n END;") false
    (B " @0   2..7   block_comment            /*MATCH*/" ++ ["010"%char] ++ B " @1  10..69  statement                body=@2" ++ ["010"%char] ++ B " @2  10..69  > query                  clauses=[@3]" ++ ["010"%char] ++ B " @3  10..68  > > DELETE               DETACH, expressions=[@4, @5]" ++ ["010"%char] ++ B " @4  24..25  > > > identifier         `n`" ++ ["010"%char] ++ B " @5  27..68  > > > case               alternatives=[(@6:@11)], default=@12" ++ ["010"%char] ++ B " @6  37..50  > > > > apply            @7(@8)" ++ ["010"%char] ++ B " @7  37..43  > > > > > function name  `exists`" ++ ["010"%char] ++ B " @8  44..49  > > > > > property       @9.@10" ++ ["010"%char] ++ B " @9  44..45  > > > > > > identifier   `n`" ++ ["010"%char] ++ B "@10  46..49  > > > > > > prop name    `foo`" ++ ["010"%char] ++ B "@11  56..57  > > > > identifier       `m`" ++ ["010"%char] ++ B "@12  63..64  > > > > identifier       `n`" ++ ["010"%char])
    (Some 69) None None None [] [] []].
Definition check_delete_outcome : list bool := Eval vm_compute in map conforms check_delete.
Example check_delete_conforms : check_delete_outcome = map (fun _ => true) check_delete.
Proof. reflexivity. Qed.

(** lib/test/check_eof.c *)
Definition check_eof : list expectation := [
  (* empty_input *)
  mkx (B " ") false
    []
    (Some 1) (Some 0) (Some 0) (Some false) [] [] [];
  (* empty_input_with_terminator *)
  mkx (B ";") false
    []
    (Some 1) (Some 0) (Some 0) (Some false) [] [] [];
  (* comment_only *)
  mkx (B "/*foo*/") false
    (B "@0  2..5  block_comment  /*foo*/" ++ ["010"%char])
    (Some 7) (Some 0) (Some 0) (Some false) [] [] [];
  (* comment_only_with_terminator *)
  mkx (B "/*foo*/;") false
    (B "@0  2..5  block_comment  /*foo*/" ++ ["010"%char])
    (Some 8) (Some 0) (Some 0) (Some false) [] [] [];
  (* error_only *)
  mkx (B "foo") false
    (B "@0  0..3  error  >>foo<<" ++ ["010"%char])
    (Some 3) (Some 1) (Some 0) (Some true) [] [] [];
  (* error_only_with_terminator *)
  mkx (B "foo;") false
    (B "@0  0..3  error  >>foo<<" ++ ["010"%char])
    (Some 4) (Some 1) (Some 0) (Some false) [] [] [];
  (* single_statement *)
  mkx (B "return 1") false
    (B "@0  0..8  statement           body=@1" ++ ["010"%char] ++ B "@1  0..8  > query             clauses=[@2]" ++ ["010"%char] ++ B "@2  0..8  > > RETURN          projections=[@3]" ++ ["010"%char] ++ B "@3  7..8  > > > projection    expression=@4, alias=@5" ++ ["010"%char] ++ B "@4  7..8  > > > > integer     1" ++ ["010"%char] ++ B "@5  7..8  > > > > identifier  `1`" ++ ["010"%char])
    (Some 8) (Some 0) (Some 1) (Some true) [] [] [];
  (* single_statement_with_terminator *)
  mkx (B "return 1;") false
    (B "@0  0..9  statement           body=@1" ++ ["010"%char] ++ B "@1  0..9  > query             clauses=[@2]" ++ ["010"%char] ++ B "@2  0..8  > > RETURN          projections=[@3]" ++ ["010"%char] ++ B "@3  7..8  > > > projection    expression=@4, alias=@5" ++ ["010"%char] ++ B "@4  7..8  > > > > integer     1" ++ ["010"%char] ++ B "@5  7..8  > > > > identifier  `1`" ++ ["010"%char])
    (Some 9) (Some 0) (Some 1) (Some false) [] [] [];
  (* single_command *)
  mkx (B ":foo bar") false
    (B "@0  0..8  command   name=@1, args=[@2]" ++ ["010"%char] ++ B "@1  1..4  > string  ""foo""" ++ ["010"%char] ++ B "@2  5..8  > string  ""bar""" ++ ["010"%char])
    (Some 8) (Some 0) (Some 1) (Some true) [] [] [];
  (* single_command_with_terminator *)
  mkx (B ":foo bar" ++ ["010"%char]) false
    (B "@0  0..8  command   name=@1, args=[@2]" ++ ["010"%char] ++ B "@1  1..4  > string  ""foo""" ++ ["010"%char] ++ B "@2  5..8  > string  ""bar""" ++ ["010"%char])
    (Some 9) (Some 0) (Some 1) (Some false) [] [] [];
  (* single_command_ending_in_line_comment *)
  mkx (B ":foo bar // baz") false
    (B "@0   0..9   command       name=@1, args=[@2]" ++ ["010"%char] ++ B "@1   1..4   > string      ""foo""" ++ ["010"%char] ++ B "@2   5..8   > string      ""bar""" ++ ["010"%char] ++ B "@3  11..15  line_comment  // baz" ++ ["010"%char])
    (Some 15) (Some 0) (Some 1) (Some true) [] [] [];
  (* single_command_ending_in_line_comment_with_terminator *)
  mkx (B ":foo bar // baz" ++ ["010"%char]) false
    (B "@0   0..9   command       name=@1, args=[@2]" ++ ["010"%char] ++ B "@1   1..4   > string      ""foo""" ++ ["010"%char] ++ B "@2   5..8   > string      ""bar""" ++ ["010"%char] ++ B "@3  11..15  line_comment  // baz" ++ ["010"%char])
    (Some 16) (Some 0) (Some 1) (Some false) [] [] [];
  (* mixed_ending_in_empty *)
  mkx (B "return 1; return 2; ; ;") false
    (B " @0   0..9   statement           body=@1" ++ ["010"%char] ++ B " @1   0..9   > query             clauses=[@2]" ++ ["010"%char] ++ B " @2   0..8   > > RETURN          projections=[@3]" ++ ["010"%char] ++ B " @3   7..8   > > > projection    expression=@4, alias=@5" ++ ["010"%char] ++ B " @4   7..8   > > > > integer     1" ++ ["010"%char] ++ B " @5   7..8   > > > > identifier  `1`" ++ ["010"%char] ++ B " @6  10..19  statement           body=@7" ++ ["010"%char] ++ B " @7  10..19  > query             clauses=[@8]" ++ ["010"%char] ++ B " @8  10..18  > > RETURN          projections=[@9]" ++ ["010"%char] ++ B " @9  17..18  > > > projection    expression=@10, alias=@11" ++ ["010"%char] ++ B "@10  17..18  > > > > integer     2" ++ ["010"%char] ++ B "@11  17..18  > > > > identifier  `2`" ++ ["010"%char])
    (Some 23) (Some 0) (Some 2) (Some false) [] [] [];
  (* mixed_ending_in_comment *)
  mkx (B "return 1; return 2; ; // foo") false
    (B " @0   0..9   statement           body=@1" ++ ["010"%char] ++ B " @1   0..9   > query             clauses=[@2]" ++ ["010"%char] ++ B " @2   0..8   > > RETURN          projections=[@3]" ++ ["010"%char] ++ B " @3   7..8   > > > projection    expression=@4, alias=@5" ++ ["010"%char] ++ B " @4   7..8   > > > > integer     1" ++ ["010"%char] ++ B " @5   7..8   > > > > identifier  `1`" ++ ["010"%char] ++ B " @6  10..19  statement           body=@7" ++ ["010"%char] ++ B " @7  10..19  > query             clauses=[@8]" ++ ["010"%char] ++ B " @8  10..18  > > RETURN          projections=[@9]" ++ ["010"%char] ++ B " @9  17..18  > > > projection    expression=@10, alias=@11" ++ ["010"%char] ++ B "@10  17..18  > > > > integer     2" ++ ["010"%char] ++ B "@11  17..18  > > > > identifier  `2`" ++ ["010"%char] ++ B "@12  24..28  line_comment        // foo" ++ ["010"%char])
    (Some 28) (Some 0) (Some 2) (Some false) [] [] [];
  (* mixed_ending_in_error *)
  mkx (B "return 1; return 2; ; foo") false
    (B " @0   0..9   statement           body=@1" ++ ["010"%char] ++ B " @1   0..9   > query             clauses=[@2]" ++ ["010"%char] ++ B " @2   0..8   > > RETURN          projections=[@3]" ++ ["010"%char] ++ B " @3   7..8   > > > projection    expression=@4, alias=@5" ++ ["010"%char] ++ B " @4   7..8   > > > > integer     1" ++ ["010"%char] ++ B " @5   7..8   > > > > identifier  `1`" ++ ["010"%char] ++ B " @6  10..19  statement           body=@7" ++ ["010"%char] ++ B " @7  10..19  > query             clauses=[@8]" ++ ["010"%char] ++ B " @8  10..18  > > RETURN          projections=[@9]" ++ ["010"%char] ++ B " @9  17..18  > > > projection    expression=@10, alias=@11" ++ ["010"%char] ++ B "@10  17..18  > > > > integer     2" ++ ["010"%char] ++ B "@11  17..18  > > > > identifier  `2`" ++ ["010"%char] ++ B "@12  22..25  error               >>foo<<" ++ ["010"%char])
    (Some 25) (Some 1) (Some 2) (Some true) [] [] [];
  (* mixed_ending_in_unterminated *)
  mkx (B "return 1; return 2; return 3") false
    (B " @0   0..9   statement           body=@1" ++ ["010"%char] ++ B " @1   0..9   > query             clauses=[@2]" ++ ["010"%char] ++ B " @2   0..8   > > RETURN          projections=[@3]" ++ ["010"%char] ++ B " @3   7..8   > > > projection    expression=@4, alias=@5" ++ ["010"%char] ++ B " @4   7..8   > > > > integer     1" ++ ["010"%char] ++ B " @5   7..8   > > > > identifier  `1`" ++ ["010"%char] ++ B " @6  10..19  statement           body=@7" ++ ["010"%char] ++ B " @7  10..19  > query             clauses=[@8]" ++ ["010"%char] ++ B " @8  10..18  > > RETURN          projections=[@9]" ++ ["010"%char] ++ B " @9  17..18  > > > projection    expression=@10, alias=@11" ++ ["010"%char] ++ B "@10  17..18  > > > > integer     2" ++ ["010"%char] ++ B "@11  17..18  > > > > identifier  `2`" ++ ["010"%char] ++ B "@12  20..28  statement           body=@13" ++ ["010"%char] ++ B "@13  20..28  > query             clauses=[@14]" ++ ["010"%char] ++ B "@14  20..28  > > RETURN          projections=[@15]" ++ ["010"%char] ++ B "@15  27..28  > > > projection    expression=@16, alias=@17" ++ ["010"%char] ++ B "@16  27..28  > > > > integer     3" ++ ["010"%char] ++ B "@17  27..28  > > > > identifier  `3`" ++ ["010"%char])
    (Some 28) (Some 0) (Some 3) (Some true) [] [] []].
Definition check_eof_outcome : list bool := Eval vm_compute in map conforms check_eof.
Example check_eof_conforms : check_eof_outcome = map (fun _ => true) check_eof.
Proof. reflexivity. Qed.

(** lib/test/check_errors.c *)
Definition check_errors : list expectation := [
  (* parse_unterminated_string *)
  mkx (B "RETURN 'foo") false
    (B "@0  0..11  error  >>RETURN 'foo<<" ++ ["010"%char])
    (Some 11) (Some 1) (Some 0) None [(B "Invalid input at end of input: expected '")] [11] [];
  (* parse_invalid_directive *)
  mkx (B "RETURN 1; [1,2,3]") false
    (B "@0   0..9   statement           body=@1" ++ ["010"%char] ++ B "@1   0..9   > query             clauses=[@2]" ++ ["010"%char] ++ B "@2   0..8   > > RETURN          projections=[@3]" ++ ["010"%char] ++ B "@3   7..8   > > > projection    expression=@4, alias=@5" ++ ["010"%char] ++ B "@4   7..8   > > > > integer     1" ++ ["010"%char] ++ B "@5   7..8   > > > > identifier  `1`" ++ ["010"%char] ++ B "@6  10..17  error               >>[1,2,3]<<" ++ ["010"%char])
    (Some 17) (Some 1) (Some 1) None [(B "Invalid input '[': expected ';', ':', a statement option, a query hint, a clause or a schema command")] [10] [];
  (* parse_invalid_clause *)
  mkx (B "MATCH (n)" ++ ["010"%char] ++ B "[1,2,3]" ++ ["010"%char] ++ B "RETURN n") false
    (B " @0   0..26  statement               body=@1" ++ ["010"%char] ++ B " @1   0..26  > query                 clauses=[@2, @8]" ++ ["010"%char] ++ B " @2   0..10  > > MATCH               pattern=@3" ++ ["010"%char] ++ B " @3   6..9   > > > pattern           paths=[@4]" ++ ["010"%char] ++ B " @4   6..9   > > > > pattern path    (@5)" ++ ["010"%char] ++ B " @5   6..9   > > > > > node pattern  (@6)" ++ ["010"%char] ++ B " @6   7..8   > > > > > > identifier  `n`" ++ ["010"%char] ++ B " @7  10..17  > > error               >>[1,2,3]<<" ++ ["010"%char] ++ B " @8  18..26  > > RETURN              projections=[@9]" ++ ["010"%char] ++ B " @9  25..26  > > > projection        expression=@10" ++ ["010"%char] ++ B "@10  25..26  > > > > identifier      `n`" ++ ["010"%char])
    (Some 26) (Some 1) (Some 1) None [(B "Invalid input '[': expected '<', '-', USING INDEX, USING JOIN ON, USING SCAN, WHERE, ';' or a clause")] [10] [];
  (* parse_invalid_query_and_resync *)
  mkx (B "MATCH n; ; MATCH (n) RETURN n;") false
    (B " @0   0..7   error                   >>MATCH n<<" ++ ["010"%char] ++ B " @1  11..30  statement               body=@2" ++ ["010"%char] ++ B " @2  11..30  > query                 clauses=[@3, @8]" ++ ["010"%char] ++ B " @3  11..21  > > MATCH               pattern=@4" ++ ["010"%char] ++ B " @4  17..20  > > > pattern           paths=[@5]" ++ ["010"%char] ++ B " @5  17..20  > > > > pattern path    (@6)" ++ ["010"%char] ++ B " @6  17..20  > > > > > node pattern  (@7)" ++ ["010"%char] ++ B " @7  18..19  > > > > > > identifier  `n`" ++ ["010"%char] ++ B " @8  21..29  > > RETURN              projections=[@9]" ++ ["010"%char] ++ B " @9  28..29  > > > projection        expression=@10" ++ ["010"%char] ++ B "@10  28..29  > > > > identifier      `n`" ++ ["010"%char])
    (Some 30) None (Some 1) None [] [] [];
  (* parse_single_invalid_query *)
  mkx (B "MATCH n; ; MATCH (n) RETURN n;") true
    (B "@0  0..7  error  >>MATCH n<<" ++ ["010"%char])
    (Some 8) None (Some 0) (Some false) [] [] [];
  (* track_error_position_over_embedded_newline *)
  mkx (B "RETURN ""foo" ++ ["010"%char] ++ B "bar"" MA TCH (n)") true
    (B "@0   0..27  statement           body=@1" ++ ["010"%char] ++ B "@1   0..27  > query             clauses=[@2]" ++ ["010"%char] ++ B "@2   0..17  > > RETURN          projections=[@3]" ++ ["010"%char] ++ B "@3   7..17  > > > projection    expression=@4, alias=@5" ++ ["010"%char] ++ B "@4   7..16  > > > > string      ""foo\nbar""" ++ ["010"%char] ++ B "@5   7..17  > > > > identifier  `""foo\nbar""`" ++ ["010"%char] ++ B "@6  17..27  > > error           >>MA TCH (n)<<" ++ ["010"%char])
    (Some 27) (Some 1) None None [(B "Invalid input ' ': expected MATCH")] [19] [];
  (* track_error_position_across_statements *)
  mkx (B "match (n) return n;" ++ ["010"%char] ++ B "m atch (n) return n;" ++ ["010"%char] ++ B "match (d) return d;" ++ ["010"%char] ++ B "match (bc e) return a;" ++ ["010"%char]) false
    (B " @0   0..19  statement               body=@1" ++ ["010"%char] ++ B " @1   0..19  > query                 clauses=[@2, @7]" ++ ["010"%char] ++ B " @2   0..10  > > MATCH               pattern=@3" ++ ["010"%char] ++ B " @3   6..9   > > > pattern           paths=[@4]" ++ ["010"%char] ++ B " @4   6..9   > > > > pattern path    (@5)" ++ ["010"%char] ++ B " @5   6..9   > > > > > node pattern  (@6)" ++ ["010"%char] ++ B " @6   7..8   > > > > > > identifier  `n`" ++ ["010"%char] ++ B " @7  10..18  > > RETURN              projections=[@8]" ++ ["010"%char] ++ B " @8  17..18  > > > projection        expression=@9" ++ ["010"%char] ++ B " @9  17..18  > > > > identifier      `n`" ++ ["010"%char] ++ B "@10  20..30  error                   >>m atch (n)<<" ++ ["010"%char] ++ B "@11  30..40  statement               body=@12" ++ ["010"%char] ++ B "@12  31..40  > query                 clauses=[@13]" ++ ["010"%char] ++ B "@13  31..39  > > RETURN              projections=[@14]" ++ ["010"%char] ++ B "@14  38..39  > > > projection        expression=@15" ++ ["010"%char] ++ B "@15  38..39  > > > > identifier      `n`" ++ ["010"%char] ++ B "@16  41..60  statement               body=@17" ++ ["010"%char] ++ B "@17  41..60  > query                 clauses=[@18, @23]" ++ ["010"%char] ++ B "@18  41..51  > > MATCH               pattern=@19" ++ ["010"%char] ++ B "@19  47..50  > > > pattern           paths=[@20]" ++ ["010"%char] ++ B "@20  47..50  > > > > pattern path    (@21)" ++ ["010"%char] ++ B "@21  47..50  > > > > > node pattern  (@22)" ++ ["010"%char] ++ B "@22  48..49  > > > > > > identifier  `d`" ++ ["010"%char] ++ B "@23  51..59  > > RETURN              projections=[@24]" ++ ["010"%char] ++ B "@24  58..59  > > > projection        expression=@25" ++ ["010"%char] ++ B "@25  58..59  > > > > identifier      `d`" ++ ["010"%char] ++ B "@26  61..73  error                   >>match (bc e)<<" ++ ["010"%char] ++ B "@27  73..83  statement               body=@28" ++ ["010"%char] ++ B "@28  74..83  > query                 clauses=[@29]" ++ ["010"%char] ++ B "@29  74..82  > > RETURN              projections=[@30]" ++ ["010"%char] ++ B "@30  81..82  > > > projection        expression=@31" ++ ["010"%char] ++ B "@31  81..82  > > > > identifier      `a`" ++ ["010"%char])
    (Some 84) (Some 2) None None [(B "Invalid input ' ': expected MATCH or MERGE"); (B "Invalid input 'e': expected a label, '{', a parameter or ')'")] [21; 71] []].
Definition check_errors_outcome : list bool := Eval vm_compute in map conforms check_errors.
Example check_errors_conforms : check_errors_outcome = map (fun _ => true) check_errors.
Proof. reflexivity. Qed.

(** lib/test/check_expression.c *)
Definition check_expression : list expectation := [
  (* parse_simple_unary_operators *)
  mkx (B "RETURN -1, +1, NOT false;") false
    (B " @0   0..25  statement               body=@1" ++ ["010"%char] ++ B " @1   0..25  > query                 clauses=[@2]" ++ ["010"%char] ++ B " @2   0..24  > > RETURN              projections=[@3, @7, @11]" ++ ["010"%char] ++ B " @3   7..9   > > > projection        expression=@4, alias=@6" ++ ["010"%char] ++ B " @4   7..9   > > > > unary operator  - @5" ++ ["010"%char] ++ B " @5   8..9   > > > > > integer       1" ++ ["010"%char] ++ B " @6   7..9   > > > > identifier      `-1`" ++ ["010"%char] ++ B " @7  11..13  > > > projection        expression=@8, alias=@10" ++ ["010"%char] ++ B " @8  11..13  > > > > unary operator  + @9" ++ ["010"%char] ++ B " @9  12..13  > > > > > integer       1" ++ ["010"%char] ++ B "@10  11..13  > > > > identifier      `+1`" ++ ["010"%char] ++ B "@11  15..24  > > > projection        expression=@12, alias=@14" ++ ["010"%char] ++ B "@12  15..24  > > > > unary operator  NOT @13" ++ ["010"%char] ++ B "@13  19..24  > > > > > FALSE" ++ ["010"%char] ++ B "@14  15..24  > > > > identifier      `NOT false`" ++ ["010"%char])
    (Some 25) None None None [] [] [];
  (* parse_simple_binary_operators *)
  mkx (B "RETURN a-1, 1 / b, c STARTS WITH 'foo', d =~ '.*', e = 1;") false
    (B " @0   0..57  statement                body=@1" ++ ["010"%char] ++ B " @1   0..57  > query                  clauses=[@2]" ++ ["010"%char] ++ B " @2   0..56  > > RETURN               projections=[@3, @8, @13, @18, @23]" ++ ["010"%char] ++ B " @3   7..10  > > > projection         expression=@4, alias=@7" ++ ["010"%char] ++ B " @4   7..10  > > > > binary operator  @5 - @6" ++ ["010"%char] ++ B " @5   7..8   > > > > > identifier     `a`" ++ ["010"%char] ++ B " @6   9..10  > > > > > integer        1" ++ ["010"%char] ++ B " @7   7..10  > > > > identifier       `a-1`" ++ ["010"%char] ++ B " @8  12..17  > > > projection         expression=@9, alias=@12" ++ ["010"%char] ++ B " @9  12..17  > > > > binary operator  @10 / @11" ++ ["010"%char] ++ B "@10  12..13  > > > > > integer        1" ++ ["010"%char] ++ B "@11  16..17  > > > > > identifier     `b`" ++ ["010"%char] ++ B "@12  12..17  > > > > identifier       `1 / b`" ++ ["010"%char] ++ B "@13  19..38  > > > projection         expression=@14, alias=@17" ++ ["010"%char] ++ B "@14  19..38  > > > > binary operator  @15 STARTS WITH @16" ++ ["010"%char] ++ B "@15  19..20  > > > > > identifier     `c`" ++ ["010"%char] ++ B "@16  33..38  > > > > > string         ""foo""" ++ ["010"%char] ++ B "@17  19..38  > > > > identifier       `c STARTS WITH 'foo'`" ++ ["010"%char] ++ B "@18  40..49  > > > projection         expression=@19, alias=@22" ++ ["010"%char] ++ B "@19  40..49  > > > > binary operator  @20 =~ @21" ++ ["010"%char] ++ B "@20  40..41  > > > > > identifier     `d`" ++ ["010"%char] ++ B "@21  45..49  > > > > > string         "".*""" ++ ["010"%char] ++ B "@22  40..49  > > > > identifier       `d =~ '.*'`" ++ ["010"%char] ++ B "@23  51..56  > > > projection         expression=@24, alias=@27" ++ ["010"%char] ++ B "@24  51..56  > > > > binary operator  @25 = @26" ++ ["010"%char] ++ B "@25  51..52  > > > > > identifier     `e`" ++ ["010"%char] ++ B "@26  55..56  > > > > > integer        1" ++ ["010"%char] ++ B "@27  51..56  > > > > identifier       `e = 1`" ++ ["010"%char])
    (Some 57) None None None [] [] [];
  (* parse_unary_and_binary_operators *)
  mkx (B "RETURN NOT 1 - 2 AND 3;") false
    (B " @0   0..23  statement                    body=@1" ++ ["010"%char] ++ B " @1   0..23  > query                      clauses=[@2]" ++ ["010"%char] ++ B " @2   0..22  > > RETURN                   projections=[@3]" ++ ["010"%char] ++ B " @3   7..22  > > > projection             expression=@4, alias=@10" ++ ["010"%char] ++ B " @4   7..22  > > > > binary operator      @5 AND @9" ++ ["010"%char] ++ B " @5   7..17  > > > > > unary operator     NOT @6" ++ ["010"%char] ++ B " @6  11..17  > > > > > > binary operator  @7 - @8" ++ ["010"%char] ++ B " @7  11..12  > > > > > > > integer        1" ++ ["010"%char] ++ B " @8  15..16  > > > > > > > integer        2" ++ ["010"%char] ++ B " @9  21..22  > > > > > integer            3" ++ ["010"%char] ++ B "@10   7..22  > > > > identifier           `NOT 1 - 2 AND 3`" ++ ["010"%char])
    (Some 23) None None None [] [] [];
  (* parse_comparison_operators *)
  mkx (B "RETURN a < 1, 4 > b > 2, 2 <= c >= 5;") false
    (B " @0   0..37  statement             body=@1" ++ ["010"%char] ++ B " @1   0..37  > query               clauses=[@2]" ++ ["010"%char] ++ B " @2   0..36  > > RETURN            projections=[@3, @8, @14]" ++ ["010"%char] ++ B " @3   7..12  > > > projection      expression=@4, alias=@7" ++ ["010"%char] ++ B " @4   7..12  > > > > comparison    @5 < @6" ++ ["010"%char] ++ B " @5   7..8   > > > > > identifier  `a`" ++ ["010"%char] ++ B " @6  11..12  > > > > > integer     1" ++ ["010"%char] ++ B " @7   7..12  > > > > identifier    `a < 1`" ++ ["010"%char] ++ B " @8  14..23  > > > projection      expression=@9, alias=@13" ++ ["010"%char] ++ B " @9  14..23  > > > > comparison    @10 > @11 > @12" ++ ["010"%char] ++ B "@10  14..15  > > > > > integer     4" ++ ["010"%char] ++ B "@11  18..19  > > > > > identifier  `b`" ++ ["010"%char] ++ B "@12  22..23  > > > > > integer     2" ++ ["010"%char] ++ B "@13  14..23  > > > > identifier    `4 > b > 2`" ++ ["010"%char] ++ B "@14  25..36  > > > projection      expression=@15, alias=@19" ++ ["010"%char] ++ B "@15  25..36  > > > > comparison    @16 <= @17 >= @18" ++ ["010"%char] ++ B "@16  25..26  > > > > > integer     2" ++ ["010"%char] ++ B "@17  30..31  > > > > > identifier  `c`" ++ ["010"%char] ++ B "@18  35..36  > > > > > integer     5" ++ ["010"%char] ++ B "@19  25..36  > > > > identifier    `2 <= c >= 5`" ++ ["010"%char])
    (Some 37) None None None [] [] [];
  (* parse_apply *)
  mkx (B "RETURN foo(bar, baz), sum(DISTINCT a), count(*), count(DISTINCT *);") false
    (B " @0   0..67  statement                body=@1" ++ ["010"%char] ++ B " @1   0..67  > query                  clauses=[@2]" ++ ["010"%char] ++ B " @2   0..66  > > RETURN               projections=[@3, @9, @14, @18]" ++ ["010"%char] ++ B " @3   7..20  > > > projection         expression=@4, alias=@8" ++ ["010"%char] ++ B " @4   7..20  > > > > apply            @5(@6, @7)" ++ ["010"%char] ++ B " @5   7..10  > > > > > function name  `foo`" ++ ["010"%char] ++ B " @6  11..14  > > > > > identifier     `bar`" ++ ["010"%char] ++ B " @7  16..19  > > > > > identifier     `baz`" ++ ["010"%char] ++ B " @8   7..20  > > > > identifier       `foo(bar, baz)`" ++ ["010"%char] ++ B " @9  22..37  > > > projection         expression=@10, alias=@13" ++ ["010"%char] ++ B "@10  22..37  > > > > apply            @11(DISTINCT @12)" ++ ["010"%char] ++ B "@11  22..25  > > > > > function name  `sum`" ++ ["010"%char] ++ B "@12  35..36  > > > > > identifier     `a`" ++ ["010"%char] ++ B "@13  22..37  > > > > identifier       `sum(DISTINCT a)`" ++ ["010"%char] ++ B "@14  39..47  > > > projection         expression=@15, alias=@17" ++ ["010"%char] ++ B "@15  39..47  > > > > apply all        @16(*)" ++ ["010"%char] ++ B "@16  39..44  > > > > > function name  `count`" ++ ["010"%char] ++ B "@17  39..47  > > > > identifier       `count(*)`" ++ ["010"%char] ++ B "@18  49..66  > > > projection         expression=@19, alias=@21" ++ ["010"%char] ++ B "@19  49..66  > > > > apply all        @20(DISTINCT *)" ++ ["010"%char] ++ B "@20  49..54  > > > > > function name  `count`" ++ ["010"%char] ++ B "@21  49..66  > > > > identifier       `count(DISTINCT *)`" ++ ["010"%char])
    (Some 67) None None None [] [] [];
  (* parse_namespaced_apply *)
  mkx (B "RETURN fuz .foo(bar, baz);") false
    (B "@0   0..26  statement                body=@1" ++ ["010"%char] ++ B "@1   0..26  > query                  clauses=[@2]" ++ ["010"%char] ++ B "@2   0..25  > > RETURN               projections=[@3]" ++ ["010"%char] ++ B "@3   7..25  > > > projection         expression=@4, alias=@8" ++ ["010"%char] ++ B "@4   7..25  > > > > apply            @5(@6, @7)" ++ ["010"%char] ++ B "@5   7..15  > > > > > function name  `fuz.foo`" ++ ["010"%char] ++ B "@6  16..19  > > > > > identifier     `bar`" ++ ["010"%char] ++ B "@7  21..24  > > > > > identifier     `baz`" ++ ["010"%char] ++ B "@8   7..25  > > > > identifier       `fuz .foo(bar, baz)`" ++ ["010"%char])
    (Some 26) None None None [] [] [];
  (* parse_subscript *)
  mkx (B "RETURN foo[n];") false
    (B "@0   0..14  statement             body=@1" ++ ["010"%char] ++ B "@1   0..14  > query               clauses=[@2]" ++ ["010"%char] ++ B "@2   0..13  > > RETURN            projections=[@3]" ++ ["010"%char] ++ B "@3   7..13  > > > projection      expression=@4, alias=@7" ++ ["010"%char] ++ B "@4   7..13  > > > > subscript     @5[@6]" ++ ["010"%char] ++ B "@5   7..10  > > > > > identifier  `foo`" ++ ["010"%char] ++ B "@6  11..12  > > > > > identifier  `n`" ++ ["010"%char] ++ B "@7   7..13  > > > > identifier    `foo[n]`" ++ ["010"%char])
    (Some 14) None None None [] [] [];
  (* parse_slice *)
  mkx (B "RETURN foo[1..5], bar[..n+5], baz[..];") false
    (B " @0   0..38  statement                  body=@1" ++ ["010"%char] ++ B " @1   0..38  > query                    clauses=[@2]" ++ ["010"%char] ++ B " @2   0..37  > > RETURN                 projections=[@3, @9, @16]" ++ ["010"%char] ++ B " @3   7..16  > > > projection           expression=@4, alias=@8" ++ ["010"%char] ++ B " @4   7..16  > > > > slice              @5[@6..@7]" ++ ["010"%char] ++ B " @5   7..10  > > > > > identifier       `foo`" ++ ["010"%char] ++ B " @6  11..12  > > > > > integer          1" ++ ["010"%char] ++ B " @7  14..15  > > > > > integer          5" ++ ["010"%char] ++ B " @8   7..16  > > > > identifier         `foo[1..5]`" ++ ["010"%char] ++ B " @9  18..28  > > > projection           expression=@10, alias=@15" ++ ["010"%char] ++ B "@10  18..28  > > > > slice              @11[..@12]" ++ ["010"%char] ++ B "@11  18..21  > > > > > identifier       `bar`" ++ ["010"%char] ++ B "@12  24..27  > > > > > binary operator  @13 + @14" ++ ["010"%char] ++ B "@13  24..25  > > > > > > identifier     `n`" ++ ["010"%char] ++ B "@14  26..27  > > > > > > integer        5" ++ ["010"%char] ++ B "@15  18..28  > > > > identifier         `bar[..n+5]`" ++ ["010"%char] ++ B "@16  30..37  > > > projection           expression=@17, alias=@19" ++ ["010"%char] ++ B "@17  30..37  > > > > slice              @18[..]" ++ ["010"%char] ++ B "@18  30..33  > > > > > identifier       `baz`" ++ ["010"%char] ++ B "@19  30..37  > > > > identifier         `baz[..]`" ++ ["010"%char])
    (Some 38) None None None [] [] [];
  (* parse_subscript_list_with_in_operator *)
  mkx (B "RETURN 3 IN [[1,2,3]][0] AS r") false
    (B " @0   0..29  statement                 body=@1" ++ ["010"%char] ++ B " @1   0..29  > query                   clauses=[@2]" ++ ["010"%char] ++ B " @2   0..29  > > RETURN                projections=[@3]" ++ ["010"%char] ++ B " @3   7..29  > > > projection          expression=@4, alias=@13" ++ ["010"%char] ++ B " @4   7..25  > > > > binary operator   @5 IN @6" ++ ["010"%char] ++ B " @5   7..8   > > > > > integer         3" ++ ["010"%char] ++ B " @6  12..25  > > > > > subscript       @7[@12]" ++ ["010"%char] ++ B " @7  12..21  > > > > > > collection    [@8]" ++ ["010"%char] ++ B " @8  13..20  > > > > > > > collection  [@9, @10, @11]" ++ ["010"%char] ++ B " @9  14..15  > > > > > > > > integer   1" ++ ["010"%char] ++ B "@10  16..17  > > > > > > > > integer   2" ++ ["010"%char] ++ B "@11  18..19  > > > > > > > > integer   3" ++ ["010"%char] ++ B "@12  22..23  > > > > > > integer       0" ++ ["010"%char] ++ B "@13  28..29  > > > > identifier        `r`" ++ ["010"%char])
    (Some 29) None None None [] [] []].
Definition check_expression_outcome : list bool := Eval vm_compute in map conforms check_expression.
Example check_expression_conforms : check_expression_outcome = map (fun _ => true) check_expression.
Proof. reflexivity. Qed.

(** lib/test/check_foreach.c *)
Definition check_foreach : list expectation := [
  (* parse_foreach *)
  mkx (B "/*MATCH*/ FOREACH (x IN [1,2,3] | SET n.foo = x REMOVE n.bar)") false
    (B " @0   2..7   block_comment            /*MATCH*/" ++ ["010"%char] ++ B " @1  10..61  statement                body=@2" ++ ["010"%char] ++ B " @2  10..61  > query                  clauses=[@3]" ++ ["010"%char] ++ B " @3  10..61  > > FOREACH              [@4 IN @5 | @9, @15]" ++ ["010"%char] ++ B " @4  19..20  > > > identifier         `x`" ++ ["010"%char] ++ B " @5  24..31  > > > collection         [@6, @7, @8]" ++ ["010"%char] ++ B " @6  25..26  > > > > integer          1" ++ ["010"%char] ++ B " @7  27..28  > > > > integer          2" ++ ["010"%char] ++ B " @8  29..30  > > > > integer          3" ++ ["010"%char] ++ B " @9  34..48  > > > SET                items=[@10]" ++ ["010"%char] ++ B "@10  38..48  > > > > set property     @11 = @14" ++ ["010"%char] ++ B "@11  38..44  > > > > > property       @12.@13" ++ ["010"%char] ++ B "@12  38..39  > > > > > > identifier   `n`" ++ ["010"%char] ++ B "@13  40..43  > > > > > > prop name    `foo`" ++ ["010"%char] ++ B "@14  46..47  > > > > > identifier     `x`" ++ ["010"%char] ++ B "@15  48..60  > > > REMOVE             items=[@16]" ++ ["010"%char] ++ B "@16  55..60  > > > > remove property  prop=@17" ++ ["010"%char] ++ B "@17  55..60  > > > > > property       @18.@19" ++ ["010"%char] ++ B "@18  55..56  > > > > > > identifier   `n`" ++ ["010"%char] ++ B "@19  57..60  > > > > > > prop name    `bar`" ++ ["010"%char])
    (Some 61) None None None [] [] []].
Definition check_foreach_outcome : list bool := Eval vm_compute in map conforms check_foreach.
Example check_foreach_conforms : check_foreach_outcome = map (fun _ => true) check_foreach.
Proof. reflexivity. Qed.

(** lib/test/check_indexes.c *)
Definition check_indexes : list expectation := [
  (* parse_create_node_prop_index *)
  mkx (B "CREATE INDEX ON :Foo(bar);") false
    (B "@0   0..26  statement       body=@1" ++ ["010"%char] ++ B "@1   0..25  > CREATE INDEX  ON=:@2(@3)" ++ ["010"%char] ++ B "@2  16..20  > > label       :`Foo`" ++ ["010"%char] ++ B "@3  21..24  > > prop name   `bar`" ++ ["010"%char])
    (Some 26) None (Some 1) None [] [] [];
  (* parse_create_node_props_index *)
  mkx (B "CREATE INDEX ON :Foo(bar, baz);") false
    (B "@0   0..31  statement       body=@1" ++ ["010"%char] ++ B "@1   0..30  > CREATE INDEX  ON=:@2(@3, @4)" ++ ["010"%char] ++ B "@2  16..20  > > label       :`Foo`" ++ ["010"%char] ++ B "@3  21..24  > > prop name   `bar`" ++ ["010"%char] ++ B "@4  26..29  > > prop name   `baz`" ++ ["010"%char])
    (Some 31) None (Some 1) None [] [] [];
  (* parse_drop_node_prop_index *)
  mkx (B "/* drop! */DROP INDEX ON /* a label */ :Foo(bar);") false
    (B "@0   2..9   block_comment      /* drop! */" ++ ["010"%char] ++ B "@1  11..49  statement          body=@2" ++ ["010"%char] ++ B "@2  11..48  > DROP INDEX       ON=:@4(@5)" ++ ["010"%char] ++ B "@3  27..36  > > block_comment  /* a label */" ++ ["010"%char] ++ B "@4  39..43  > > label          :`Foo`" ++ ["010"%char] ++ B "@5  44..47  > > prop name      `bar`" ++ ["010"%char])
    (Some 49) None (Some 1) None [] [] [];
  (* parse_drop_node_props_index *)
  mkx (B "/* drop! */DROP INDEX ON /* a label */ :Foo(bar, baz);") false
    (B "@0   2..9   block_comment      /* drop! */" ++ ["010"%char] ++ B "@1  11..54  statement          body=@2" ++ ["010"%char] ++ B "@2  11..53  > DROP INDEX       ON=:@4(@5, @6)" ++ ["010"%char] ++ B "@3  27..36  > > block_comment  /* a label */" ++ ["010"%char] ++ B "@4  39..43  > > label          :`Foo`" ++ ["010"%char] ++ B "@5  44..47  > > prop name      `bar`" ++ ["010"%char] ++ B "@6  49..52  > > prop name      `baz`" ++ ["010"%char])
    (Some 54) None (Some 1) None [] [] []].
Definition check_indexes_outcome : list bool := Eval vm_compute in map conforms check_indexes.
Example check_indexes_conforms : check_indexes_outcome = map (fun _ => true) check_indexes.
Proof. reflexivity. Qed.

(** lib/test/check_list_comprehensions.c *)
Definition check_list_comprehensions : list expectation := [
  (* parse_empty_list_comprehension *)
  mkx (B "RETURN [ x in list /* nothing */ ];") false
    (B "@0   0..35  statement                   body=@1" ++ ["010"%char] ++ B "@1   0..35  > query                     clauses=[@2]" ++ ["010"%char] ++ B "@2   0..34  > > RETURN                  projections=[@3]" ++ ["010"%char] ++ B "@3   7..34  > > > projection            expression=@4, alias=@8" ++ ["010"%char] ++ B "@4   7..34  > > > > list comprehension  [@5 IN @6]" ++ ["010"%char] ++ B "@5   9..10  > > > > > identifier        `x`" ++ ["010"%char] ++ B "@6  14..18  > > > > > identifier        `list`" ++ ["010"%char] ++ B "@7  21..30  > > > > > block_comment     /* nothing */" ++ ["010"%char] ++ B "@8   7..34  > > > > identifier          `[ x in list /* nothing */ ]`" ++ ["010"%char])
    (Some 35) None None None [] [] [];
  (* parse_full_list_comprehension *)
  mkx (B "RETURN [x in list WHERE x.foo < 10 | x.bar ];") false
    (B " @0   0..45  statement                   body=@1" ++ ["010"%char] ++ B " @1   0..45  > query                     clauses=[@2]" ++ ["010"%char] ++ B " @2   0..44  > > RETURN                  projections=[@3]" ++ ["010"%char] ++ B " @3   7..44  > > > projection            expression=@4, alias=@15" ++ ["010"%char] ++ B " @4   7..44  > > > > list comprehension  [@5 IN @6 WHERE @7 | @12]" ++ ["010"%char] ++ B " @5   8..9   > > > > > identifier        `x`" ++ ["010"%char] ++ B " @6  13..17  > > > > > identifier        `list`" ++ ["010"%char] ++ B " @7  24..35  > > > > > comparison        @8 < @11" ++ ["010"%char] ++ B " @8  24..30  > > > > > > property        @9.@10" ++ ["010"%char] ++ B " @9  24..25  > > > > > > > identifier    `x`" ++ ["010"%char] ++ B "@10  26..29  > > > > > > > prop name     `foo`" ++ ["010"%char] ++ B "@11  32..34  > > > > > > integer         10" ++ ["010"%char] ++ B "@12  37..43  > > > > > property          @13.@14" ++ ["010"%char] ++ B "@13  37..38  > > > > > > identifier      `x`" ++ ["010"%char] ++ B "@14  39..42  > > > > > > prop name       `bar`" ++ ["010"%char] ++ B "@15   7..44  > > > > identifier          `[x in list WHERE x.foo < 10 | x.bar ]`" ++ ["010"%char])
    (Some 45) None None None [] [] [];
  (* parse_filter *)
  mkx (B "RETURN filter(x in list WHERE x.foo < 10);") false
    (B " @0   0..42  statement                 body=@1" ++ ["010"%char] ++ B " @1   0..42  > query                   clauses=[@2]" ++ ["010"%char] ++ B " @2   0..41  > > RETURN                projections=[@3]" ++ ["010"%char] ++ B " @3   7..41  > > > projection          expression=@4, alias=@12" ++ ["010"%char] ++ B " @4   7..41  > > > > filter            [@5 IN @6 WHERE @7]" ++ ["010"%char] ++ B " @5  14..15  > > > > > identifier      `x`" ++ ["010"%char] ++ B " @6  19..23  > > > > > identifier      `list`" ++ ["010"%char] ++ B " @7  30..40  > > > > > comparison      @8 < @11" ++ ["010"%char] ++ B " @8  30..36  > > > > > > property      @9.@10" ++ ["010"%char] ++ B " @9  30..31  > > > > > > > identifier  `x`" ++ ["010"%char] ++ B "@10  32..35  > > > > > > > prop name   `foo`" ++ ["010"%char] ++ B "@11  38..40  > > > > > > integer       10" ++ ["010"%char] ++ B "@12   7..41  > > > > identifier        `filter(x in list WHERE x.foo < 10)`" ++ ["010"%char])
    (Some 42) None None None [] [] [];
  (* parse_extract *)
  mkx (B "RETURN extract(x in list | x.bar);") false
    (B " @0   0..34  statement               body=@1" ++ ["010"%char] ++ B " @1   0..34  > query                 clauses=[@2]" ++ ["010"%char] ++ B " @2   0..33  > > RETURN              projections=[@3]" ++ ["010"%char] ++ B " @3   7..33  > > > projection        expression=@4, alias=@10" ++ ["010"%char] ++ B " @4   7..33  > > > > extract         [@5 IN @6 | @7]" ++ ["010"%char] ++ B " @5  15..16  > > > > > identifier    `x`" ++ ["010"%char] ++ B " @6  20..24  > > > > > identifier    `list`" ++ ["010"%char] ++ B " @7  27..32  > > > > > property      @8.@9" ++ ["010"%char] ++ B " @8  27..28  > > > > > > identifier  `x`" ++ ["010"%char] ++ B " @9  29..32  > > > > > > prop name   `bar`" ++ ["010"%char] ++ B "@10   7..33  > > > > identifier      `extract(x in list | x.bar)`" ++ ["010"%char])
    (Some 34) None None None [] [] [];
  (* parse_all *)
  mkx (B "RETURN all(x in list WHERE x.foo < 10);") false
    (B " @0   0..39  statement                 body=@1" ++ ["010"%char] ++ B " @1   0..39  > query                   clauses=[@2]" ++ ["010"%char] ++ B " @2   0..38  > > RETURN                projections=[@3]" ++ ["010"%char] ++ B " @3   7..38  > > > projection          expression=@4, alias=@12" ++ ["010"%char] ++ B " @4   7..38  > > > > all               [@5 IN @6 WHERE @7]" ++ ["010"%char] ++ B " @5  11..12  > > > > > identifier      `x`" ++ ["010"%char] ++ B " @6  16..20  > > > > > identifier      `list`" ++ ["010"%char] ++ B " @7  27..37  > > > > > comparison      @8 < @11" ++ ["010"%char] ++ B " @8  27..33  > > > > > > property      @9.@10" ++ ["010"%char] ++ B " @9  27..28  > > > > > > > identifier  `x`" ++ ["010"%char] ++ B "@10  29..32  > > > > > > > prop name   `foo`" ++ ["010"%char] ++ B "@11  35..37  > > > > > > integer       10" ++ ["010"%char] ++ B "@12   7..38  > > > > identifier        `all(x in list WHERE x.foo < 10)`" ++ ["010"%char])
    (Some 39) None None None [] [] [];
  (* parse_any *)
  mkx (B "RETURN any(x in list WHERE x.foo < 10);") false
    (B " @0   0..39  statement                 body=@1" ++ ["010"%char] ++ B " @1   0..39  > query                   clauses=[@2]" ++ ["010"%char] ++ B " @2   0..38  > > RETURN                projections=[@3]" ++ ["010"%char] ++ B " @3   7..38  > > > projection          expression=@4, alias=@12" ++ ["010"%char] ++ B " @4   7..38  > > > > any               [@5 IN @6 WHERE @7]" ++ ["010"%char] ++ B " @5  11..12  > > > > > identifier      `x`" ++ ["010"%char] ++ B " @6  16..20  > > > > > identifier      `list`" ++ ["010"%char] ++ B " @7  27..37  > > > > > comparison      @8 < @11" ++ ["010"%char] ++ B " @8  27..33  > > > > > > property      @9.@10" ++ ["010"%char] ++ B " @9  27..28  > > > > > > > identifier  `x`" ++ ["010"%char] ++ B "@10  29..32  > > > > > > > prop name   `foo`" ++ ["010"%char] ++ B "@11  35..37  > > > > > > integer       10" ++ ["010"%char] ++ B "@12   7..38  > > > > identifier        `any(x in list WHERE x.foo < 10)`" ++ ["010"%char])
    (Some 39) None None None [] [] [];
  (* parse_single *)
  mkx (B "RETURN single(x in list WHERE x.foo < 10);") false
    (B " @0   0..42  statement                 body=@1" ++ ["010"%char] ++ B " @1   0..42  > query                   clauses=[@2]" ++ ["010"%char] ++ B " @2   0..41  > > RETURN                projections=[@3]" ++ ["010"%char] ++ B " @3   7..41  > > > projection          expression=@4, alias=@12" ++ ["010"%char] ++ B " @4   7..41  > > > > single            [@5 IN @6 WHERE @7]" ++ ["010"%char] ++ B " @5  14..15  > > > > > identifier      `x`" ++ ["010"%char] ++ B " @6  19..23  > > > > > identifier      `list`" ++ ["010"%char] ++ B " @7  30..40  > > > > > comparison      @8 < @11" ++ ["010"%char] ++ B " @8  30..36  > > > > > > property      @9.@10" ++ ["010"%char] ++ B " @9  30..31  > > > > > > > identifier  `x`" ++ ["010"%char] ++ B "@10  32..35  > > > > > > > prop name   `foo`" ++ ["010"%char] ++ B "@11  38..40  > > > > > > integer       10" ++ ["010"%char] ++ B "@12   7..41  > > > > identifier        `single(x in list WHERE x.foo < 10)`" ++ ["010"%char])
    (Some 42) None None None [] [] [];
  (* parse_none *)
  mkx (B "RETURN none(x in list WHERE x.foo < 10);") false
    (B " @0   0..40  statement                 body=@1" ++ ["010"%char] ++ B " @1   0..40  > query                   clauses=[@2]" ++ ["010"%char] ++ B " @2   0..39  > > RETURN                projections=[@3]" ++ ["010"%char] ++ B " @3   7..39  > > > projection          expression=@4, alias=@12" ++ ["010"%char] ++ B " @4   7..39  > > > > none              [@5 IN @6 WHERE @7]" ++ ["010"%char] ++ B " @5  12..13  > > > > > identifier      `x`" ++ ["010"%char] ++ B " @6  17..21  > > > > > identifier      `list`" ++ ["010"%char] ++ B " @7  28..38  > > > > > comparison      @8 < @11" ++ ["010"%char] ++ B " @8  28..34  > > > > > > property      @9.@10" ++ ["010"%char] ++ B " @9  28..29  > > > > > > > identifier  `x`" ++ ["010"%char] ++ B "@10  30..33  > > > > > > > prop name   `foo`" ++ ["010"%char] ++ B "@11  36..38  > > > > > > integer       10" ++ ["010"%char] ++ B "@12   7..39  > > > > identifier        `none(x in list WHERE x.foo < 10)`" ++ ["010"%char])
    (Some 40) None None None [] [] []].
Definition check_list_comprehensions_outcome : list bool := Eval vm_compute in map conforms check_list_comprehensions.
Example check_list_comprehensions_conforms : check_list_comprehensions_outcome = map (fun _ => true) check_list_comprehensions.
Proof. reflexivity. Qed.

(** lib/test/check_load_csv.c *)
Definition check_load_csv : list expectation := [
  (* parse_load_csv *)
  mkx (B "LOAD CSV FROM 'file:///movies.csv' AS m RETURN m;") false
    (B "@0   0..49  statement           body=@1" ++ ["010"%char] ++ B "@1   0..49  > query             clauses=[@2, @5]" ++ ["010"%char] ++ B "@2   0..40  > > LOAD CSV        url=@3, identifier=@4" ++ ["010"%char] ++ B "@3  14..34  > > > string        ""file:///movies.csv""" ++ ["010"%char] ++ B "@4  38..39  > > > identifier    `m`" ++ ["010"%char] ++ B "@5  40..48  > > RETURN          projections=[@6]" ++ ["010"%char] ++ B "@6  47..48  > > > projection    expression=@7" ++ ["010"%char] ++ B "@7  47..48  > > > > identifier  `m`" ++ ["010"%char])
    (Some 49) None (Some 1) None [] [] [];
  (* parse_load_csv_with_headers *)
  mkx (B "LOAD CSV WITH HEADERS FROM {source} AS m RETURN m;") false
    (B "@0   0..50  statement           body=@1" ++ ["010"%char] ++ B "@1   0..50  > query             clauses=[@2, @5]" ++ ["010"%char] ++ B "@2   0..41  > > LOAD CSV        WITH HEADERS, url=@3, identifier=@4" ++ ["010"%char] ++ B "@3  27..35  > > > parameter     $`source`" ++ ["010"%char] ++ B "@4  39..40  > > > identifier    `m`" ++ ["010"%char] ++ B "@5  41..49  > > RETURN          projections=[@6]" ++ ["010"%char] ++ B "@6  48..49  > > > projection    expression=@7" ++ ["010"%char] ++ B "@7  48..49  > > > > identifier  `m`" ++ ["010"%char])
    (Some 50) None (Some 1) None [] [] [];
  (* parse_load_csv_with_field_terminator *)
  mkx (B "LOAD CSV FROM {source} AS m FIELDTERMINATOR '|' RETURN m;") false
    (B "@0   0..57  statement           body=@1" ++ ["010"%char] ++ B "@1   0..57  > query             clauses=[@2, @6]" ++ ["010"%char] ++ B "@2   0..48  > > LOAD CSV        url=@3, identifier=@4, field_terminator=@5" ++ ["010"%char] ++ B "@3  14..22  > > > parameter     $`source`" ++ ["010"%char] ++ B "@4  26..27  > > > identifier    `m`" ++ ["010"%char] ++ B "@5  44..47  > > > string        ""|""" ++ ["010"%char] ++ B "@6  48..56  > > RETURN          projections=[@7]" ++ ["010"%char] ++ B "@7  55..56  > > > projection    expression=@8" ++ ["010"%char] ++ B "@8  55..56  > > > > identifier  `m`" ++ ["010"%char])
    (Some 57) None (Some 1) None [] [] []].
Definition check_load_csv_outcome : list bool := Eval vm_compute in map conforms check_load_csv.
Example check_load_csv_conforms : check_load_csv_outcome = map (fun _ => true) check_load_csv.
Proof. reflexivity. Qed.

(** lib/test/check_map_projection.c *)
Definition check_map_projection : list expectation := [
  (* parse_map_project_none *)
  mkx (B "RETURN a{} AS x") false
    (B "@0   0..15  statement               body=@1" ++ ["010"%char] ++ B "@1   0..15  > query                 clauses=[@2]" ++ ["010"%char] ++ B "@2   0..15  > > RETURN              projections=[@3]" ++ ["010"%char] ++ B "@3   7..15  > > > projection        expression=@4, alias=@6" ++ ["010"%char] ++ B "@4   7..11  > > > > map projection  @5{}" ++ ["010"%char] ++ B "@5   7..8   > > > > > identifier    `a`" ++ ["010"%char] ++ B "@6  14..15  > > > > identifier      `x`" ++ ["010"%char])
    (Some 15) None None None [] [] [];
  (* parse_map_project_multiple_selectors *)
  mkx (B "RETURN map{x: 1, .y, z, .*}") false
    (B " @0   0..27  statement                            body=@1" ++ ["010"%char] ++ B " @1   0..27  > query                              clauses=[@2]" ++ ["010"%char] ++ B " @2   0..27  > > RETURN                           projections=[@3]" ++ ["010"%char] ++ B " @3   7..27  > > > projection                     expression=@4, alias=@14" ++ ["010"%char] ++ B " @4   7..27  > > > > map projection               @5{@6, @9, @11, @13}" ++ ["010"%char] ++ B " @5   7..10  > > > > > identifier                 `map`" ++ ["010"%char] ++ B " @6  11..15  > > > > > literal projection         @7: @8" ++ ["010"%char] ++ B " @7  11..12  > > > > > > prop name                `x`" ++ ["010"%char] ++ B " @8  14..15  > > > > > > integer                  1" ++ ["010"%char] ++ B " @9  17..19  > > > > > property projection        .@10" ++ ["010"%char] ++ B "@10  18..19  > > > > > > prop name                `y`" ++ ["010"%char] ++ B "@11  21..22  > > > > > identifier projection      @12" ++ ["010"%char] ++ B "@12  21..22  > > > > > > identifier               `z`" ++ ["010"%char] ++ B "@13  24..26  > > > > > all properties projection  .*" ++ ["010"%char] ++ B "@14   7..27  > > > > identifier                   `map{x: 1, .y, z, .*}`" ++ ["010"%char])
    None None None None [] [] []].
Definition check_map_projection_outcome : list bool := Eval vm_compute in map conforms check_map_projection.
Example check_map_projection_conforms : check_map_projection_outcome = map (fun _ => true) check_map_projection.
Proof. reflexivity. Qed.

(** lib/test/check_match.c *)
Definition check_match : list expectation := [
  (* parse_simple_match *)
  mkx (B "MATCH (n)-[:KNOWS]->(f) RETURN f;") false
    (B " @0   0..33  statement               body=@1" ++ ["010"%char] ++ B " @1   0..33  > query                 clauses=[@2, @11]" ++ ["010"%char] ++ B " @2   0..24  > > MATCH               pattern=@3" ++ ["010"%char] ++ B " @3   6..23  > > > pattern           paths=[@4]" ++ ["010"%char] ++ B " @4   6..23  > > > > pattern path    (@5)-[@7]-(@9)" ++ ["010"%char] ++ B " @5   6..9   > > > > > node pattern  (@6)" ++ ["010"%char] ++ B " @6   7..8   > > > > > > identifier  `n`" ++ ["010"%char] ++ B " @7   9..20  > > > > > rel pattern   -[:@8]->" ++ ["010"%char] ++ B " @8  11..17  > > > > > > rel type    :`KNOWS`" ++ ["010"%char] ++ B " @9  20..23  > > > > > node pattern  (@10)" ++ ["010"%char] ++ B "@10  21..22  > > > > > > identifier  `f`" ++ ["010"%char] ++ B "@11  24..32  > > RETURN              projections=[@12]" ++ ["010"%char] ++ B "@12  31..32  > > > projection        expression=@13" ++ ["010"%char] ++ B "@13  31..32  > > > > identifier      `f`" ++ ["010"%char])
    (Some 33) None None None [] [] [];
  (* parse_simple_optional_match *)
  mkx (B "OPTIONAL MATCH (n) RETURN n;") false
    (B "@0   0..28  statement               body=@1" ++ ["010"%char] ++ B "@1   0..28  > query                 clauses=[@2, @7]" ++ ["010"%char] ++ B "@2   0..19  > > MATCH               OPTIONAL, pattern=@3" ++ ["010"%char] ++ B "@3  15..18  > > > pattern           paths=[@4]" ++ ["010"%char] ++ B "@4  15..18  > > > > pattern path    (@5)" ++ ["010"%char] ++ B "@5  15..18  > > > > > node pattern  (@6)" ++ ["010"%char] ++ B "@6  16..17  > > > > > > identifier  `n`" ++ ["010"%char] ++ B "@7  19..27  > > RETURN              projections=[@8]" ++ ["010"%char] ++ B "@8  26..27  > > > projection        expression=@9" ++ ["010"%char] ++ B "@9  26..27  > > > > identifier      `n`" ++ ["010"%char])
    (Some 28) None None None [] [] [];
  (* parse_match_with_predicate *)
  mkx (B "MATCH (n) WHERE n:Foo RETURN n;") false
    (B " @0   0..31  statement               body=@1" ++ ["010"%char] ++ B " @1   0..31  > query                 clauses=[@2, @10]" ++ ["010"%char] ++ B " @2   0..22  > > MATCH               pattern=@3, where=@7" ++ ["010"%char] ++ B " @3   6..9   > > > pattern           paths=[@4]" ++ ["010"%char] ++ B " @4   6..9   > > > > pattern path    (@5)" ++ ["010"%char] ++ B " @5   6..9   > > > > > node pattern  (@6)" ++ ["010"%char] ++ B " @6   7..8   > > > > > > identifier  `n`" ++ ["010"%char] ++ B " @7  16..22  > > > has labels        @8:@9" ++ ["010"%char] ++ B " @8  16..17  > > > > identifier      `n`" ++ ["010"%char] ++ B " @9  17..21  > > > > label           :`Foo`" ++ ["010"%char] ++ B "@10  22..30  > > RETURN              projections=[@11]" ++ ["010"%char] ++ B "@11  29..30  > > > projection        expression=@12" ++ ["010"%char] ++ B "@12  29..30  > > > > identifier      `n`" ++ ["010"%char])
    (Some 31) None None None [] [] [];
  (* parse_match_with_using_index_hint *)
  mkx (B "MATCH (n:Foo) USING INDEX n:Foo(bar) RETURN n;") false
    (B " @0   0..46  statement               body=@1" ++ ["010"%char] ++ B " @1   0..46  > query                 clauses=[@2, @12]" ++ ["010"%char] ++ B " @2   0..37  > > MATCH               pattern=@3, hints=[@8]" ++ ["010"%char] ++ B " @3   6..13  > > > pattern           paths=[@4]" ++ ["010"%char] ++ B " @4   6..13  > > > > pattern path    (@5)" ++ ["010"%char] ++ B " @5   6..13  > > > > > node pattern  (@6:@7)" ++ ["010"%char] ++ B " @6   7..8   > > > > > > identifier  `n`" ++ ["010"%char] ++ B " @7   8..12  > > > > > > label       :`Foo`" ++ ["010"%char] ++ B " @8  14..37  > > > USING INDEX       @9:@10(@11)" ++ ["010"%char] ++ B " @9  26..27  > > > > identifier      `n`" ++ ["010"%char] ++ B "@10  27..31  > > > > label           :`Foo`" ++ ["010"%char] ++ B "@11  32..35  > > > > prop name       `bar`" ++ ["010"%char] ++ B "@12  37..45  > > RETURN              projections=[@13]" ++ ["010"%char] ++ B "@13  44..45  > > > projection        expression=@14" ++ ["010"%char] ++ B "@14  44..45  > > > > identifier      `n`" ++ ["010"%char])
    (Some 46) None None None [] [] [];
  (* parse_match_with_using_join_hint *)
  mkx (B "MATCH (n), (m) USING JOIN ON n, m RETURN n;") false
    (B " @0   0..43  statement               body=@1" ++ ["010"%char] ++ B " @1   0..43  > query                 clauses=[@2, @13]" ++ ["010"%char] ++ B " @2   0..34  > > MATCH               pattern=@3, hints=[@10]" ++ ["010"%char] ++ B " @3   6..14  > > > pattern           paths=[@4, @7]" ++ ["010"%char] ++ B " @4   6..9   > > > > pattern path    (@5)" ++ ["010"%char] ++ B " @5   6..9   > > > > > node pattern  (@6)" ++ ["010"%char] ++ B " @6   7..8   > > > > > > identifier  `n`" ++ ["010"%char] ++ B " @7  11..14  > > > > pattern path    (@8)" ++ ["010"%char] ++ B " @8  11..14  > > > > > node pattern  (@9)" ++ ["010"%char] ++ B " @9  12..13  > > > > > > identifier  `m`" ++ ["010"%char] ++ B "@10  15..34  > > > USING JOIN        on=[@11, @12]" ++ ["010"%char] ++ B "@11  29..30  > > > > identifier      `n`" ++ ["010"%char] ++ B "@12  32..33  > > > > identifier      `m`" ++ ["010"%char] ++ B "@13  34..42  > > RETURN              projections=[@14]" ++ ["010"%char] ++ B "@14  41..42  > > > projection        expression=@15" ++ ["010"%char] ++ B "@15  41..42  > > > > identifier      `n`" ++ ["010"%char])
    (Some 43) None None None [] [] [];
  (* parse_match_with_using_scan_hint *)
  mkx (B "MATCH (n:Foo) USING SCAN n:Foo RETURN n;") false
    (B " @0   0..40  statement               body=@1" ++ ["010"%char] ++ B " @1   0..40  > query                 clauses=[@2, @11]" ++ ["010"%char] ++ B " @2   0..31  > > MATCH               pattern=@3, hints=[@8]" ++ ["010"%char] ++ B " @3   6..13  > > > pattern           paths=[@4]" ++ ["010"%char] ++ B " @4   6..13  > > > > pattern path    (@5)" ++ ["010"%char] ++ B " @5   6..13  > > > > > node pattern  (@6:@7)" ++ ["010"%char] ++ B " @6   7..8   > > > > > > identifier  `n`" ++ ["010"%char] ++ B " @7   8..12  > > > > > > label       :`Foo`" ++ ["010"%char] ++ B " @8  14..31  > > > USING SCAN        @9:@10" ++ ["010"%char] ++ B " @9  25..26  > > > > identifier      `n`" ++ ["010"%char] ++ B "@10  26..30  > > > > label           :`Foo`" ++ ["010"%char] ++ B "@11  31..39  > > RETURN              projections=[@12]" ++ ["010"%char] ++ B "@12  38..39  > > > projection        expression=@13" ++ ["010"%char] ++ B "@13  38..39  > > > > identifier      `n`" ++ ["010"%char])
    (Some 40) None None None [] [] []].
Definition check_match_outcome : list bool := Eval vm_compute in map conforms check_match.
Example check_match_conforms : check_match_outcome = map (fun _ => true) check_match.
Proof. reflexivity. Qed.

(** lib/test/check_merge.c *)
Definition check_merge : list expectation := [
  (* parse_simple_merge *)
  mkx (B "MERGE (n)-[:KNOWS]->(f) RETURN f;") false
    (B " @0   0..33  statement             body=@1" ++ ["010"%char] ++ B " @1   0..33  > query               clauses=[@2, @10]" ++ ["010"%char] ++ B " @2   0..24  > > MERGE             path=@3" ++ ["010"%char] ++ B " @3   6..23  > > > pattern path    (@4)-[@6]-(@8)" ++ ["010"%char] ++ B " @4   6..9   > > > > node pattern  (@5)" ++ ["010"%char] ++ B " @5   7..8   > > > > > identifier  `n`" ++ ["010"%char] ++ B " @6   9..20  > > > > rel pattern   -[:@7]->" ++ ["010"%char] ++ B " @7  11..17  > > > > > rel type    :`KNOWS`" ++ ["010"%char] ++ B " @8  20..23  > > > > node pattern  (@9)" ++ ["010"%char] ++ B " @9  21..22  > > > > > identifier  `f`" ++ ["010"%char] ++ B "@10  24..32  > > RETURN            projections=[@11]" ++ ["010"%char] ++ B "@11  31..32  > > > projection      expression=@12" ++ ["010"%char] ++ B "@12  31..32  > > > > identifier    `f`" ++ ["010"%char])
    (Some 33) None None None [] [] [];
  (* parse_merge_with_on_match_action *)
  mkx (B "MERGE (n:Foo) ON MATCH SET n.bar = 'baz' RETURN n;") false
    (B " @0   0..50  statement               body=@1" ++ ["010"%char] ++ B " @1   0..50  > query                 clauses=[@2, @13]" ++ ["010"%char] ++ B " @2   0..41  > > MERGE               path=@3, action[@7]" ++ ["010"%char] ++ B " @3   6..13  > > > pattern path      (@4)" ++ ["010"%char] ++ B " @4   6..13  > > > > node pattern    (@5:@6)" ++ ["010"%char] ++ B " @5   7..8   > > > > > identifier    `n`" ++ ["010"%char] ++ B " @6   8..12  > > > > > label         :`Foo`" ++ ["010"%char] ++ B " @7  14..41  > > > ON MATCH          items=[@8]" ++ ["010"%char] ++ B " @8  27..41  > > > > set property    @9 = @12" ++ ["010"%char] ++ B " @9  27..33  > > > > > property      @10.@11" ++ ["010"%char] ++ B "@10  27..28  > > > > > > identifier  `n`" ++ ["010"%char] ++ B "@11  29..32  > > > > > > prop name   `bar`" ++ ["010"%char] ++ B "@12  35..40  > > > > > string        ""baz""" ++ ["010"%char] ++ B "@13  41..49  > > RETURN              projections=[@14]" ++ ["010"%char] ++ B "@14  48..49  > > > projection        expression=@15" ++ ["010"%char] ++ B "@15  48..49  > > > > identifier      `n`" ++ ["010"%char])
    (Some 50) None None None [] [] [];
  (* parse_merge_with_on_create_action *)
  mkx (B "MERGE (n:Foo) ON CREATE SET n.bar = 'baz', n:Bar RETURN n;") false
    (B " @0   0..58  statement               body=@1" ++ ["010"%char] ++ B " @1   0..58  > query                 clauses=[@2, @16]" ++ ["010"%char] ++ B " @2   0..49  > > MERGE               path=@3, action[@7]" ++ ["010"%char] ++ B " @3   6..13  > > > pattern path      (@4)" ++ ["010"%char] ++ B " @4   6..13  > > > > node pattern    (@5:@6)" ++ ["010"%char] ++ B " @5   7..8   > > > > > identifier    `n`" ++ ["010"%char] ++ B " @6   8..12  > > > > > label         :`Foo`" ++ ["010"%char] ++ B " @7  14..49  > > > ON CREATE         items=[@8, @13]" ++ ["010"%char] ++ B " @8  28..41  > > > > set property    @9 = @12" ++ ["010"%char] ++ B " @9  28..34  > > > > > property      @10.@11" ++ ["010"%char] ++ B "@10  28..29  > > > > > > identifier  `n`" ++ ["010"%char] ++ B "@11  30..33  > > > > > > prop name   `bar`" ++ ["010"%char] ++ B "@12  36..41  > > > > > string        ""baz""" ++ ["010"%char] ++ B "@13  43..49  > > > > set labels      @14:@15" ++ ["010"%char] ++ B "@14  43..44  > > > > > identifier    `n`" ++ ["010"%char] ++ B "@15  44..48  > > > > > label         :`Bar`" ++ ["010"%char] ++ B "@16  49..57  > > RETURN              projections=[@17]" ++ ["010"%char] ++ B "@17  56..57  > > > projection        expression=@18" ++ ["010"%char] ++ B "@18  56..57  > > > > identifier      `n`" ++ ["010"%char])
    (Some 58) None None None [] [] [];
  (* parse_merge_with_multiple_actions *)
  mkx (B "MERGE (n:Foo) ON CREATE SET n.bar = 'baz' ON MATCH SET n.bar = 'foo' RETURN n;") false
    (B " @0   0..78  statement               body=@1" ++ ["010"%char] ++ B " @1   0..78  > query                 clauses=[@2, @19]" ++ ["010"%char] ++ B " @2   0..69  > > MERGE               path=@3, action[@7, @13]" ++ ["010"%char] ++ B " @3   6..13  > > > pattern path      (@4)" ++ ["010"%char] ++ B " @4   6..13  > > > > node pattern    (@5:@6)" ++ ["010"%char] ++ B " @5   7..8   > > > > > identifier    `n`" ++ ["010"%char] ++ B " @6   8..12  > > > > > label         :`Foo`" ++ ["010"%char] ++ B " @7  14..42  > > > ON CREATE         items=[@8]" ++ ["010"%char] ++ B " @8  28..42  > > > > set property    @9 = @12" ++ ["010"%char] ++ B " @9  28..34  > > > > > property      @10.@11" ++ ["010"%char] ++ B "@10  28..29  > > > > > > identifier  `n`" ++ ["010"%char] ++ B "@11  30..33  > > > > > > prop name   `bar`" ++ ["010"%char] ++ B "@12  36..41  > > > > > string        ""baz""" ++ ["010"%char] ++ B "@13  42..69  > > > ON MATCH          items=[@14]" ++ ["010"%char] ++ B "@14  55..69  > > > > set property    @15 = @18" ++ ["010"%char] ++ B "@15  55..61  > > > > > property      @16.@17" ++ ["010"%char] ++ B "@16  55..56  > > > > > > identifier  `n`" ++ ["010"%char] ++ B "@17  57..60  > > > > > > prop name   `bar`" ++ ["010"%char] ++ B "@18  63..68  > > > > > string        ""foo""" ++ ["010"%char] ++ B "@19  69..77  > > RETURN              projections=[@20]" ++ ["010"%char] ++ B "@20  76..77  > > > projection        expression=@21" ++ ["010"%char] ++ B "@21  76..77  > > > > identifier      `n`" ++ ["010"%char])
    (Some 78) None None None [] [] []].
Definition check_merge_outcome : list bool := Eval vm_compute in map conforms check_merge.
Example check_merge_conforms : check_merge_outcome = map (fun _ => true) check_merge.
Proof. reflexivity. Qed.

(** lib/test/check_pattern.c *)
Definition check_pattern : list expectation := [
  (* parse_single_node *)
  mkx (B "MATCH (n) RETURN n;") false
    (B "@0   0..19  statement               body=@1" ++ ["010"%char] ++ B "@1   0..19  > query                 clauses=[@2, @7]" ++ ["010"%char] ++ B "@2   0..10  > > MATCH               pattern=@3" ++ ["010"%char] ++ B "@3   6..9   > > > pattern           paths=[@4]" ++ ["010"%char] ++ B "@4   6..9   > > > > pattern path    (@5)" ++ ["010"%char] ++ B "@5   6..9   > > > > > node pattern  (@6)" ++ ["010"%char] ++ B "@6   7..8   > > > > > > identifier  `n`" ++ ["010"%char] ++ B "@7  10..18  > > RETURN              projections=[@8]" ++ ["010"%char] ++ B "@8  17..18  > > > projection        expression=@9" ++ ["010"%char] ++ B "@9  17..18  > > > > identifier      `n`" ++ ["010"%char])
    (Some 19) None None None [] [] [];
  (* parse_labeled_node *)
  mkx (B "MATCH (n:Foo) RETURN n;") false
    (B " @0   0..23  statement               body=@1" ++ ["010"%char] ++ B " @1   0..23  > query                 clauses=[@2, @8]" ++ ["010"%char] ++ B " @2   0..14  > > MATCH               pattern=@3" ++ ["010"%char] ++ B " @3   6..13  > > > pattern           paths=[@4]" ++ ["010"%char] ++ B " @4   6..13  > > > > pattern path    (@5)" ++ ["010"%char] ++ B " @5   6..13  > > > > > node pattern  (@6:@7)" ++ ["010"%char] ++ B " @6   7..8   > > > > > > identifier  `n`" ++ ["010"%char] ++ B " @7   8..12  > > > > > > label       :`Foo`" ++ ["010"%char] ++ B " @8  14..22  > > RETURN              projections=[@9]" ++ ["010"%char] ++ B " @9  21..22  > > > projection        expression=@10" ++ ["010"%char] ++ B "@10  21..22  > > > > identifier      `n`" ++ ["010"%char])
    (Some 23) None None None [] [] [];
  (* parse_multiple_labeled_node *)
  mkx (B "MATCH (n:Foo:Bar) RETURN n;") false
    (B " @0   0..27  statement               body=@1" ++ ["010"%char] ++ B " @1   0..27  > query                 clauses=[@2, @9]" ++ ["010"%char] ++ B " @2   0..18  > > MATCH               pattern=@3" ++ ["010"%char] ++ B " @3   6..17  > > > pattern           paths=[@4]" ++ ["010"%char] ++ B " @4   6..17  > > > > pattern path    (@5)" ++ ["010"%char] ++ B " @5   6..17  > > > > > node pattern  (@6:@7:@8)" ++ ["010"%char] ++ B " @6   7..8   > > > > > > identifier  `n`" ++ ["010"%char] ++ B " @7   8..12  > > > > > > label       :`Foo`" ++ ["010"%char] ++ B " @8  12..16  > > > > > > label       :`Bar`" ++ ["010"%char] ++ B " @9  18..26  > > RETURN              projections=[@10]" ++ ["010"%char] ++ B "@10  25..26  > > > projection        expression=@11" ++ ["010"%char] ++ B "@11  25..26  > > > > identifier      `n`" ++ ["010"%char])
    (Some 27) None None None [] [] [];
  (* parse_node_with_map_props *)
  mkx (B "MATCH (n:Person {name: 'Hunter'}) RETURN n;") false
    (B " @0   0..43  statement                body=@1" ++ ["010"%char] ++ B " @1   0..43  > query                  clauses=[@2, @11]" ++ ["010"%char] ++ B " @2   0..34  > > MATCH                pattern=@3" ++ ["010"%char] ++ B " @3   6..33  > > > pattern            paths=[@4]" ++ ["010"%char] ++ B " @4   6..33  > > > > pattern path     (@5)" ++ ["010"%char] ++ B " @5   6..33  > > > > > node pattern   (@6:@7 {@8})" ++ ["010"%char] ++ B " @6   7..8   > > > > > > identifier   `n`" ++ ["010"%char] ++ B " @7   8..15  > > > > > > label        :`Person`" ++ ["010"%char] ++ B " @8  16..32  > > > > > > map          {@9:@10}" ++ ["010"%char] ++ B " @9  17..21  > > > > > > > prop name  `name`" ++ ["010"%char] ++ B "@10  23..31  > > > > > > > string     ""Hunter""" ++ ["010"%char] ++ B "@11  34..42  > > RETURN               projections=[@12]" ++ ["010"%char] ++ B "@12  41..42  > > > projection         expression=@13" ++ ["010"%char] ++ B "@13  41..42  > > > > identifier       `n`" ++ ["010"%char])
    (Some 43) None None None [] [] [];
  (* parse_node_with_param_props *)
  mkx (B "MATCH (n:Person {param}) RETURN n;") false
    (B " @0   0..34  statement               body=@1" ++ ["010"%char] ++ B " @1   0..34  > query                 clauses=[@2, @9]" ++ ["010"%char] ++ B " @2   0..25  > > MATCH               pattern=@3" ++ ["010"%char] ++ B " @3   6..24  > > > pattern           paths=[@4]" ++ ["010"%char] ++ B " @4   6..24  > > > > pattern path    (@5)" ++ ["010"%char] ++ B " @5   6..24  > > > > > node pattern  (@6:@7 {@8})" ++ ["010"%char] ++ B " @6   7..8   > > > > > > identifier  `n`" ++ ["010"%char] ++ B " @7   8..15  > > > > > > label       :`Person`" ++ ["010"%char] ++ B " @8  16..23  > > > > > > parameter   $`param`" ++ ["010"%char] ++ B " @9  25..33  > > RETURN              projections=[@10]" ++ ["010"%char] ++ B "@10  32..33  > > > projection        expression=@11" ++ ["010"%char] ++ B "@11  32..33  > > > > identifier      `n`" ++ ["010"%char])
    (Some 34) None None None [] [] [];
  (* parse_single_rel *)
  mkx (B "MATCH (n)-[:Foo]->(m) RETURN n;") false
    (B " @0   0..31  statement               body=@1" ++ ["010"%char] ++ B " @1   0..31  > query                 clauses=[@2, @11]" ++ ["010"%char] ++ B " @2   0..22  > > MATCH               pattern=@3" ++ ["010"%char] ++ B " @3   6..21  > > > pattern           paths=[@4]" ++ ["010"%char] ++ B " @4   6..21  > > > > pattern path    (@5)-[@7]-(@9)" ++ ["010"%char] ++ B " @5   6..9   > > > > > node pattern  (@6)" ++ ["010"%char] ++ B " @6   7..8   > > > > > > identifier  `n`" ++ ["010"%char] ++ B " @7   9..18  > > > > > rel pattern   -[:@8]->" ++ ["010"%char] ++ B " @8  11..15  > > > > > > rel type    :`Foo`" ++ ["010"%char] ++ B " @9  18..21  > > > > > node pattern  (@10)" ++ ["010"%char] ++ B "@10  19..20  > > > > > > identifier  `m`" ++ ["010"%char] ++ B "@11  22..30  > > RETURN              projections=[@12]" ++ ["010"%char] ++ B "@12  29..30  > > > projection        expression=@13" ++ ["010"%char] ++ B "@13  29..30  > > > > identifier      `n`" ++ ["010"%char])
    (Some 31) None None None [] [] [];
  (* parse_varlength_rel *)
  mkx (B "MATCH (n)-[r:Foo*]-(m) RETURN n;") false
    (B " @0   0..32  statement               body=@1" ++ ["010"%char] ++ B " @1   0..32  > query                 clauses=[@2, @13]" ++ ["010"%char] ++ B " @2   0..23  > > MATCH               pattern=@3" ++ ["010"%char] ++ B " @3   6..22  > > > pattern           paths=[@4]" ++ ["010"%char] ++ B " @4   6..22  > > > > pattern path    (@5)-[@7]-(@11)" ++ ["010"%char] ++ B " @5   6..9   > > > > > node pattern  (@6)" ++ ["010"%char] ++ B " @6   7..8   > > > > > > identifier  `n`" ++ ["010"%char] ++ B " @7   9..19  > > > > > rel pattern   -[@8:@9*@10]-" ++ ["010"%char] ++ B " @8  11..12  > > > > > > identifier  `r`" ++ ["010"%char] ++ B " @9  12..16  > > > > > > rel type    :`Foo`" ++ ["010"%char] ++ B "@10  17..17  > > > > > > range       *" ++ ["010"%char] ++ B "@11  19..22  > > > > > node pattern  (@12)" ++ ["010"%char] ++ B "@12  20..21  > > > > > > identifier  `m`" ++ ["010"%char] ++ B "@13  23..31  > > RETURN              projections=[@14]" ++ ["010"%char] ++ B "@14  30..31  > > > projection        expression=@15" ++ ["010"%char] ++ B "@15  30..31  > > > > identifier      `n`" ++ ["010"%char])
    (Some 32) None None None [] [] [];
  (* parse_varlength_rel_with_bounded_start *)
  mkx (B "MATCH (n)<-[r:Foo*5..]-(m) RETURN n;") false
    (B " @0   0..36  statement               body=@1" ++ ["010"%char] ++ B " @1   0..36  > query                 clauses=[@2, @14]" ++ ["010"%char] ++ B " @2   0..27  > > MATCH               pattern=@3" ++ ["010"%char] ++ B " @3   6..26  > > > pattern           paths=[@4]" ++ ["010"%char] ++ B " @4   6..26  > > > > pattern path    (@5)-[@7]-(@12)" ++ ["010"%char] ++ B " @5   6..9   > > > > > node pattern  (@6)" ++ ["010"%char] ++ B " @6   7..8   > > > > > > identifier  `n`" ++ ["010"%char] ++ B " @7   9..23  > > > > > rel pattern   <-[@8:@9*@10]-" ++ ["010"%char] ++ B " @8  12..13  > > > > > > identifier  `r`" ++ ["010"%char] ++ B " @9  13..17  > > > > > > rel type    :`Foo`" ++ ["010"%char] ++ B "@10  17..21  > > > > > > range       *@11.." ++ ["010"%char] ++ B "@11  18..19  > > > > > > > integer   5" ++ ["010"%char] ++ B "@12  23..26  > > > > > node pattern  (@13)" ++ ["010"%char] ++ B "@13  24..25  > > > > > > identifier  `m`" ++ ["010"%char] ++ B "@14  27..35  > > RETURN              projections=[@15]" ++ ["010"%char] ++ B "@15  34..35  > > > projection        expression=@16" ++ ["010"%char] ++ B "@16  34..35  > > > > identifier      `n`" ++ ["010"%char])
    (Some 36) None None None [] [] [];
  (* parse_varlength_rel_with_bounded_end *)
  mkx (B "MATCH (n)<-[r:Foo*..9]->(m) RETURN n;") false
    (B " @0   0..37  statement               body=@1" ++ ["010"%char] ++ B " @1   0..37  > query                 clauses=[@2, @14]" ++ ["010"%char] ++ B " @2   0..28  > > MATCH               pattern=@3" ++ ["010"%char] ++ B " @3   6..27  > > > pattern           paths=[@4]" ++ ["010"%char] ++ B " @4   6..27  > > > > pattern path    (@5)-[@7]-(@12)" ++ ["010"%char] ++ B " @5   6..9   > > > > > node pattern  (@6)" ++ ["010"%char] ++ B " @6   7..8   > > > > > > identifier  `n`" ++ ["010"%char] ++ B " @7   9..24  > > > > > rel pattern   -[@8:@9*@10]-" ++ ["010"%char] ++ B " @8  12..13  > > > > > > identifier  `r`" ++ ["010"%char] ++ B " @9  13..17  > > > > > > rel type    :`Foo`" ++ ["010"%char] ++ B "@10  17..21  > > > > > > range       *..@11" ++ ["010"%char] ++ B "@11  20..21  > > > > > > > integer   9" ++ ["010"%char] ++ B "@12  24..27  > > > > > node pattern  (@13)" ++ ["010"%char] ++ B "@13  25..26  > > > > > > identifier  `m`" ++ ["010"%char] ++ B "@14  28..36  > > RETURN              projections=[@15]" ++ ["010"%char] ++ B "@15  35..36  > > > projection        expression=@16" ++ ["010"%char] ++ B "@16  35..36  > > > > identifier      `n`" ++ ["010"%char])
    (Some 37) None None None [] [] [];
  (* parse_varlength_rel_with_fixed_range *)
  mkx (B "MATCH (n)<-[r:Foo*7]->(m) RETURN n;") false
    (B " @0   0..35  statement               body=@1" ++ ["010"%char] ++ B " @1   0..35  > query                 clauses=[@2, @14]" ++ ["010"%char] ++ B " @2   0..26  > > MATCH               pattern=@3" ++ ["010"%char] ++ B " @3   6..25  > > > pattern           paths=[@4]" ++ ["010"%char] ++ B " @4   6..25  > > > > pattern path    (@5)-[@7]-(@12)" ++ ["010"%char] ++ B " @5   6..9   > > > > > node pattern  (@6)" ++ ["010"%char] ++ B " @6   7..8   > > > > > > identifier  `n`" ++ ["010"%char] ++ B " @7   9..22  > > > > > rel pattern   -[@8:@9*@10]-" ++ ["010"%char] ++ B " @8  12..13  > > > > > > identifier  `r`" ++ ["010"%char] ++ B " @9  13..17  > > > > > > rel type    :`Foo`" ++ ["010"%char] ++ B "@10  18..19  > > > > > > range       *@11..@11" ++ ["010"%char] ++ B "@11  18..19  > > > > > > > integer   7" ++ ["010"%char] ++ B "@12  22..25  > > > > > node pattern  (@13)" ++ ["010"%char] ++ B "@13  23..24  > > > > > > identifier  `m`" ++ ["010"%char] ++ B "@14  26..34  > > RETURN              projections=[@15]" ++ ["010"%char] ++ B "@15  33..34  > > > projection        expression=@16" ++ ["010"%char] ++ B "@16  33..34  > > > > identifier      `n`" ++ ["010"%char])
    (Some 35) None None None [] [] [];
  (* parse_rel_with_map_props *)
  mkx (B "RETURN (n)-[:Foo {start:1999, end:2000}]->(m) AS p;") false
    (B " @0   0..51  statement                body=@1" ++ ["010"%char] ++ B " @1   0..51  > query                  clauses=[@2]" ++ ["010"%char] ++ B " @2   0..50  > > RETURN               projections=[@3]" ++ ["010"%char] ++ B " @3   7..50  > > > projection         expression=@4, alias=@16" ++ ["010"%char] ++ B " @4   7..45  > > > > pattern path     (@5)-[@7]-(@14)" ++ ["010"%char] ++ B " @5   7..10  > > > > > node pattern   (@6)" ++ ["010"%char] ++ B " @6   8..9   > > > > > > identifier   `n`" ++ ["010"%char] ++ B " @7  10..42  > > > > > rel pattern    -[:@8 {@9}]->" ++ ["010"%char] ++ B " @8  12..16  > > > > > > rel type     :`Foo`" ++ ["010"%char] ++ B " @9  17..39  > > > > > > map          {@10:@11, @12:@13}" ++ ["010"%char] ++ B "@10  18..23  > > > > > > > prop name  `start`" ++ ["010"%char] ++ B "@11  24..28  > > > > > > > integer    1999" ++ ["010"%char] ++ B "@12  30..33  > > > > > > > prop name  `end`" ++ ["010"%char] ++ B "@13  34..38  > > > > > > > integer    2000" ++ ["010"%char] ++ B "@14  42..45  > > > > > node pattern   (@15)" ++ ["010"%char] ++ B "@15  43..44  > > > > > > identifier   `m`" ++ ["010"%char] ++ B "@16  49..50  > > > > identifier       `p`" ++ ["010"%char])
    (Some 51) None None None [] [] [];
  (* parse_rel_with_param_props *)
  mkx (B "RETURN (n)-[:Foo {param}]->(m) AS p;") false
    (B " @0   0..36  statement               body=@1" ++ ["010"%char] ++ B " @1   0..36  > query                 clauses=[@2]" ++ ["010"%char] ++ B " @2   0..35  > > RETURN              projections=[@3]" ++ ["010"%char] ++ B " @3   7..35  > > > projection        expression=@4, alias=@12" ++ ["010"%char] ++ B " @4   7..30  > > > > pattern path    (@5)-[@7]-(@10)" ++ ["010"%char] ++ B " @5   7..10  > > > > > node pattern  (@6)" ++ ["010"%char] ++ B " @6   8..9   > > > > > > identifier  `n`" ++ ["010"%char] ++ B " @7  10..27  > > > > > rel pattern   -[:@8 {@9}]->" ++ ["010"%char] ++ B " @8  12..16  > > > > > > rel type    :`Foo`" ++ ["010"%char] ++ B " @9  17..24  > > > > > > parameter   $`param`" ++ ["010"%char] ++ B "@10  27..30  > > > > > node pattern  (@11)" ++ ["010"%char] ++ B "@11  28..29  > > > > > > identifier  `m`" ++ ["010"%char] ++ B "@12  34..35  > > > > identifier      `p`" ++ ["010"%char])
    (Some 36) None None None [] [] [];
  (* parse_named_path *)
  mkx (B "MATCH p = (n)-[:Foo]->(m) RETURN p;") false
    (B " @0   0..35  statement                 body=@1" ++ ["010"%char] ++ B " @1   0..35  > query                   clauses=[@2, @13]" ++ ["010"%char] ++ B " @2   0..26  > > MATCH                 pattern=@3" ++ ["010"%char] ++ B " @3   6..25  > > > pattern             paths=[@4]" ++ ["010"%char] ++ B " @4   6..25  > > > > named path        @5 = @6" ++ ["010"%char] ++ B " @5   6..7   > > > > > identifier      `p`" ++ ["010"%char] ++ B " @6  10..25  > > > > > pattern path    (@7)-[@9]-(@11)" ++ ["010"%char] ++ B " @7  10..13  > > > > > > node pattern  (@8)" ++ ["010"%char] ++ B " @8  11..12  > > > > > > > identifier  `n`" ++ ["010"%char] ++ B " @9  13..22  > > > > > > rel pattern   -[:@10]->" ++ ["010"%char] ++ B "@10  15..19  > > > > > > > rel type    :`Foo`" ++ ["010"%char] ++ B "@11  22..25  > > > > > > node pattern  (@12)" ++ ["010"%char] ++ B "@12  23..24  > > > > > > > identifier  `m`" ++ ["010"%char] ++ B "@13  26..34  > > RETURN                projections=[@14]" ++ ["010"%char] ++ B "@14  33..34  > > > projection          expression=@15" ++ ["010"%char] ++ B "@15  33..34  > > > > identifier        `p`" ++ ["010"%char])
    (Some 35) None None None [] [] [];
  (* parse_shortest_path *)
  mkx (B "MATCH p = shortestPath((n)-[:Foo]->(m)) RETURN n;") false
    (B " @0   0..49  statement                   body=@1" ++ ["010"%char] ++ B " @1   0..49  > query                     clauses=[@2, @14]" ++ ["010"%char] ++ B " @2   0..40  > > MATCH                   pattern=@3" ++ ["010"%char] ++ B " @3   6..39  > > > pattern               paths=[@4]" ++ ["010"%char] ++ B " @4   6..39  > > > > named path          @5 = @6" ++ ["010"%char] ++ B " @5   6..7   > > > > > identifier        `p`" ++ ["010"%char] ++ B " @6  10..39  > > > > > shortestPath      single=true, path=@7" ++ ["010"%char] ++ B " @7  23..38  > > > > > > pattern path    (@8)-[@10]-(@12)" ++ ["010"%char] ++ B " @8  23..26  > > > > > > > node pattern  (@9)" ++ ["010"%char] ++ B " @9  24..25  > > > > > > > > identifier  `n`" ++ ["010"%char] ++ B "@10  26..35  > > > > > > > rel pattern   -[:@11]->" ++ ["010"%char] ++ B "@11  28..32  > > > > > > > > rel type    :`Foo`" ++ ["010"%char] ++ B "@12  35..38  > > > > > > > node pattern  (@13)" ++ ["010"%char] ++ B "@13  36..37  > > > > > > > > identifier  `m`" ++ ["010"%char] ++ B "@14  40..48  > > RETURN                  projections=[@15]" ++ ["010"%char] ++ B "@15  47..48  > > > projection            expression=@16" ++ ["010"%char] ++ B "@16  47..48  > > > > identifier          `n`" ++ ["010"%char])
    (Some 49) None None None [] [] [];
  (* parse_all_shortest_paths *)
  mkx (B "RETURN allShortestPaths((n)-[:Foo]->(m)) AS p;") false
    (B " @0   0..46  statement                 body=@1" ++ ["010"%char] ++ B " @1   0..46  > query                   clauses=[@2]" ++ ["010"%char] ++ B " @2   0..45  > > RETURN                projections=[@3]" ++ ["010"%char] ++ B " @3   7..45  > > > projection          expression=@4, alias=@12" ++ ["010"%char] ++ B " @4   7..40  > > > > shortestPath      single=false, path=@5" ++ ["010"%char] ++ B " @5  24..39  > > > > > pattern path    (@6)-[@8]-(@10)" ++ ["010"%char] ++ B " @6  24..27  > > > > > > node pattern  (@7)" ++ ["010"%char] ++ B " @7  25..26  > > > > > > > identifier  `n`" ++ ["010"%char] ++ B " @8  27..36  > > > > > > rel pattern   -[:@9]->" ++ ["010"%char] ++ B " @9  29..33  > > > > > > > rel type    :`Foo`" ++ ["010"%char] ++ B "@10  36..39  > > > > > > node pattern  (@11)" ++ ["010"%char] ++ B "@11  37..38  > > > > > > > identifier  `m`" ++ ["010"%char] ++ B "@12  44..45  > > > > identifier        `p`" ++ ["010"%char])
    (Some 46) None None None [] [] []].
Definition check_pattern_outcome : list bool := Eval vm_compute in map conforms check_pattern.
Example check_pattern_conforms : check_pattern_outcome = map (fun _ => true) check_pattern.
Proof. reflexivity. Qed.

(** lib/test/check_pattern_comprehension.c *)
Definition check_pattern_comprehension : list expectation := [
  (* parse_simple_pattern_comprehension *)
  mkx (B "RETURN [ (a)-->(b) | b.name ];") false
    (B " @0   0..30  statement                      body=@1" ++ ["010"%char] ++ B " @1   0..30  > query                        clauses=[@2]" ++ ["010"%char] ++ B " @2   0..29  > > RETURN                     projections=[@3]" ++ ["010"%char] ++ B " @3   7..29  > > > projection               expression=@4, alias=@14" ++ ["010"%char] ++ B " @4   7..29  > > > > pattern comprehension  [@5 | @11]" ++ ["010"%char] ++ B " @5   9..18  > > > > > pattern path         (@6)-[@8]-(@9)" ++ ["010"%char] ++ B " @6   9..12  > > > > > > node pattern       (@7)" ++ ["010"%char] ++ B " @7  10..11  > > > > > > > identifier       `a`" ++ ["010"%char] ++ B " @8  12..15  > > > > > > rel pattern        -[]->" ++ ["010"%char] ++ B " @9  15..18  > > > > > > node pattern       (@10)" ++ ["010"%char] ++ B "@10  16..17  > > > > > > > identifier       `b`" ++ ["010"%char] ++ B "@11  21..28  > > > > > property             @12.@13" ++ ["010"%char] ++ B "@12  21..22  > > > > > > identifier         `b`" ++ ["010"%char] ++ B "@13  23..27  > > > > > > prop name          `name`" ++ ["010"%char] ++ B "@14   7..29  > > > > identifier             `[ (a)-->(b) | b.name ]`" ++ ["010"%char])
    (Some 30) None None None [] [] []].
Definition check_pattern_comprehension_outcome : list bool := Eval vm_compute in map conforms check_pattern_comprehension.
Example check_pattern_comprehension_conforms : check_pattern_comprehension_outcome = map (fun _ => true) check_pattern_comprehension.
Proof. reflexivity. Qed.

(** lib/test/check_query.c *)
Definition check_query : list expectation := [
  (* parse_query_with_no_options *)
  mkx (B "MATCH (n) RETURN n;") false
    (B "@0   0..19  statement               body=@1" ++ ["010"%char] ++ B "@1   0..19  > query                 clauses=[@2, @7]" ++ ["010"%char] ++ B "@2   0..10  > > MATCH               pattern=@3" ++ ["010"%char] ++ B "@3   6..9   > > > pattern           paths=[@4]" ++ ["010"%char] ++ B "@4   6..9   > > > > pattern path    (@5)" ++ ["010"%char] ++ B "@5   6..9   > > > > > node pattern  (@6)" ++ ["010"%char] ++ B "@6   7..8   > > > > > > identifier  `n`" ++ ["010"%char] ++ B "@7  10..18  > > RETURN              projections=[@8]" ++ ["010"%char] ++ B "@8  17..18  > > > projection        expression=@9" ++ ["010"%char] ++ B "@9  17..18  > > > > identifier      `n`" ++ ["010"%char])
    (Some 19) None (Some 1) None [] [] [];
  (* parse_query_with_periodic_commit_option *)
  mkx (B "USING PERIODIC COMMIT 500 CREATE (n);") false
    (B "@0   0..37  statement                  body=@1" ++ ["010"%char] ++ B "@1   0..37  > query                    clauses=[@4]" ++ ["010"%char] ++ B "@2   0..26  > > USING PERIODIC_COMMIT  limit=@3" ++ ["010"%char] ++ B "@3  22..25  > > > integer              500" ++ ["010"%char] ++ B "@4  26..36  > > CREATE                 pattern=@5" ++ ["010"%char] ++ B "@5  33..36  > > > pattern              paths=[@6]" ++ ["010"%char] ++ B "@6  33..36  > > > > pattern path       (@7)" ++ ["010"%char] ++ B "@7  33..36  > > > > > node pattern     (@8)" ++ ["010"%char] ++ B "@8  34..35  > > > > > > identifier     `n`" ++ ["010"%char])
    (Some 37) None (Some 1) None [] [] [];
  (* parse_query_with_periodic_commit_option_with_no_limit *)
  mkx (B "USING PERIODIC COMMIT CREATE (n);") false
    (B "@0   0..33  statement                  body=@1" ++ ["010"%char] ++ B "@1   0..33  > query                    clauses=[@3]" ++ ["010"%char] ++ B "@2   0..22  > > USING PERIODIC_COMMIT" ++ ["010"%char] ++ B "@3  22..32  > > CREATE                 pattern=@4" ++ ["010"%char] ++ B "@4  29..32  > > > pattern              paths=[@5]" ++ ["010"%char] ++ B "@5  29..32  > > > > pattern path       (@6)" ++ ["010"%char] ++ B "@6  29..32  > > > > > node pattern     (@7)" ++ ["010"%char] ++ B "@7  30..31  > > > > > > identifier     `n`" ++ ["010"%char])
    (Some 33) None (Some 1) None [] [] []].
Definition check_query_outcome : list bool := Eval vm_compute in map conforms check_query.
Example check_query_conforms : check_query_outcome = map (fun _ => true) check_query.
Proof. reflexivity. Qed.

(** lib/test/check_reduce.c *)
Definition check_reduce : list expectation := [
  (* parse_reduce *)
  mkx (B "RETURN reduce(a = 0, b in list | a + b);") false
    (B " @0   0..40  statement                  body=@1" ++ ["010"%char] ++ B " @1   0..40  > query                    clauses=[@2]" ++ ["010"%char] ++ B " @2   0..39  > > RETURN                 projections=[@3]" ++ ["010"%char] ++ B " @3   7..39  > > > projection           expression=@4, alias=@12" ++ ["010"%char] ++ B " @4   7..39  > > > > reduce             [@5=@6, @7 IN @8 | @9]" ++ ["010"%char] ++ B " @5  14..15  > > > > > identifier       `a`" ++ ["010"%char] ++ B " @6  18..19  > > > > > integer          0" ++ ["010"%char] ++ B " @7  21..22  > > > > > identifier       `b`" ++ ["010"%char] ++ B " @8  26..30  > > > > > identifier       `list`" ++ ["010"%char] ++ B " @9  33..38  > > > > > binary operator  @10 + @11" ++ ["010"%char] ++ B "@10  33..34  > > > > > > identifier     `a`" ++ ["010"%char] ++ B "@11  37..38  > > > > > > identifier     `b`" ++ ["010"%char] ++ B "@12   7..39  > > > > identifier         `reduce(a = 0, b in list | a + b)`" ++ ["010"%char])
    (Some 40) None None None [] [] []].
Definition check_reduce_outcome : list bool := Eval vm_compute in map conforms check_reduce.
Example check_reduce_conforms : check_reduce_outcome = map (fun _ => true) check_reduce.
Proof. reflexivity. Qed.

(** lib/test/check_remove.c *)
Definition check_remove : list expectation := [
  (* parse_remove_label *)
  mkx (B "/*MATCH*/ REMOVE n:Foo, m:Bar:Baz") false
    (B " @0   2..7   block_comment        /*MATCH*/" ++ ["010"%char] ++ B " @1  10..33  statement            body=@2" ++ ["010"%char] ++ B " @2  10..33  > query              clauses=[@3]" ++ ["010"%char] ++ B " @3  10..33  > > REMOVE           items=[@4, @7]" ++ ["010"%char] ++ B " @4  17..22  > > > remove labels  @5:@6" ++ ["010"%char] ++ B " @5  17..18  > > > > identifier   `n`" ++ ["010"%char] ++ B " @6  18..22  > > > > label        :`Foo`" ++ ["010"%char] ++ B " @7  24..33  > > > remove labels  @8:@9:@10" ++ ["010"%char] ++ B " @8  24..25  > > > > identifier   `m`" ++ ["010"%char] ++ B " @9  25..29  > > > > label        :`Bar`" ++ ["010"%char] ++ B "@10  29..33  > > > > label        :`Baz`" ++ ["010"%char])
    (Some 33) None None None [] [] [];
  (* parse_remove_property *)
  mkx (B "/*MATCH*/ REMOVE n.foo, m.bar.baz") false
    (B " @0   2..7   block_comment           /*MATCH*/" ++ ["010"%char] ++ B " @1  10..33  statement               body=@2" ++ ["010"%char] ++ B " @2  10..33  > query                 clauses=[@3]" ++ ["010"%char] ++ B " @3  10..33  > > REMOVE              items=[@4, @8]" ++ ["010"%char] ++ B " @4  17..22  > > > remove property   prop=@5" ++ ["010"%char] ++ B " @5  17..22  > > > > property        @6.@7" ++ ["010"%char] ++ B " @6  17..18  > > > > > identifier    `n`" ++ ["010"%char] ++ B " @7  19..22  > > > > > prop name     `foo`" ++ ["010"%char] ++ B " @8  24..33  > > > remove property   prop=@9" ++ ["010"%char] ++ B " @9  24..33  > > > > property        @10.@13" ++ ["010"%char] ++ B "@10  24..29  > > > > > property      @11.@12" ++ ["010"%char] ++ B "@11  24..25  > > > > > > identifier  `m`" ++ ["010"%char] ++ B "@12  26..29  > > > > > > prop name   `bar`" ++ ["010"%char] ++ B "@13  30..33  > > > > > prop name     `baz`" ++ ["010"%char])
    (Some 33) None None None [] [] []].
Definition check_remove_outcome : list bool := Eval vm_compute in map conforms check_remove.
Example check_remove_conforms : check_remove_outcome = map (fun _ => true) check_remove.
Proof. reflexivity. Qed.

(** lib/test/check_return.c *)
Definition check_return : list expectation := [
  (* parse_simple_return *)
  mkx (B "/* MATCH */ RETURN 1 AS x, 'bar' AS y") false
    (B "@0   2..9   block_comment       /* MATCH */" ++ ["010"%char] ++ B "@1  12..37  statement           body=@2" ++ ["010"%char] ++ B "@2  12..37  > query             clauses=[@3]" ++ ["010"%char] ++ B "@3  12..37  > > RETURN          projections=[@4, @7]" ++ ["010"%char] ++ B "@4  19..25  > > > projection    expression=@5, alias=@6" ++ ["010"%char] ++ B "@5  19..20  > > > > integer     1" ++ ["010"%char] ++ B "@6  24..25  > > > > identifier  `x`" ++ ["010"%char] ++ B "@7  27..37  > > > projection    expression=@8, alias=@9" ++ ["010"%char] ++ B "@8  27..32  > > > > string      ""bar""" ++ ["010"%char] ++ B "@9  36..37  > > > > identifier  `y`" ++ ["010"%char])
    (Some 37) None None None [] [] [];
  (* parse_distinct_return *)
  mkx (B "/* MATCH */ RETURN DISTINCT 1 AS x, 'bar' AS y") false
    (B "@0   2..9   block_comment       /* MATCH */" ++ ["010"%char] ++ B "@1  12..46  statement           body=@2" ++ ["010"%char] ++ B "@2  12..46  > query             clauses=[@3]" ++ ["010"%char] ++ B "@3  12..46  > > RETURN          DISTINCT, projections=[@4, @7]" ++ ["010"%char] ++ B "@4  28..34  > > > projection    expression=@5, alias=@6" ++ ["010"%char] ++ B "@5  28..29  > > > > integer     1" ++ ["010"%char] ++ B "@6  33..34  > > > > identifier  `x`" ++ ["010"%char] ++ B "@7  36..46  > > > projection    expression=@8, alias=@9" ++ ["010"%char] ++ B "@8  36..41  > > > > string      ""bar""" ++ ["010"%char] ++ B "@9  45..46  > > > > identifier  `y`" ++ ["010"%char])
    (Some 46) None None None [] [] [];
  (* parse_return_including_existing *)
  mkx (B "/* MATCH */ RETURN *, 1 AS x, 'bar' AS y") false
    (B "@0   2..9   block_comment       /* MATCH */" ++ ["010"%char] ++ B "@1  12..40  statement           body=@2" ++ ["010"%char] ++ B "@2  12..40  > query             clauses=[@3]" ++ ["010"%char] ++ B "@3  12..40  > > RETURN          *, projections=[@4, @7]" ++ ["010"%char] ++ B "@4  22..28  > > > projection    expression=@5, alias=@6" ++ ["010"%char] ++ B "@5  22..23  > > > > integer     1" ++ ["010"%char] ++ B "@6  27..28  > > > > identifier  `x`" ++ ["010"%char] ++ B "@7  30..40  > > > projection    expression=@8, alias=@9" ++ ["010"%char] ++ B "@8  30..35  > > > > string      ""bar""" ++ ["010"%char] ++ B "@9  39..40  > > > > identifier  `y`" ++ ["010"%char])
    (Some 40) None None None [] [] [];
  (* parse_return_and_order_by *)
  mkx (B "RETURN 1 AS x, 'bar' AS y ORDER BY x DESC, y ASC, z.prop + 10") false
    (B " @0   0..61  statement                  body=@1" ++ ["010"%char] ++ B " @1   0..61  > query                    clauses=[@2]" ++ ["010"%char] ++ B " @2   0..61  > > RETURN                 projections=[@3, @6], ORDER BY=@9" ++ ["010"%char] ++ B " @3   7..13  > > > projection           expression=@4, alias=@5" ++ ["010"%char] ++ B " @4   7..8   > > > > integer            1" ++ ["010"%char] ++ B " @5  12..13  > > > > identifier         `x`" ++ ["010"%char] ++ B " @6  15..26  > > > projection           expression=@7, alias=@8" ++ ["010"%char] ++ B " @7  15..20  > > > > string             ""bar""" ++ ["010"%char] ++ B " @8  24..25  > > > > identifier         `y`" ++ ["010"%char] ++ B " @9  26..61  > > > ORDER BY             items=[@10, @12, @14]" ++ ["010"%char] ++ B "@10  35..41  > > > > sort item          expression=@11, DESCENDING" ++ ["010"%char] ++ B "@11  35..36  > > > > > identifier       `x`" ++ ["010"%char] ++ B "@12  43..48  > > > > sort item          expression=@13, ASCENDING" ++ ["010"%char] ++ B "@13  43..44  > > > > > identifier       `y`" ++ ["010"%char] ++ B "@14  50..61  > > > > sort item          expression=@15, ASCENDING" ++ ["010"%char] ++ B "@15  50..61  > > > > > binary operator  @16 + @19" ++ ["010"%char] ++ B "@16  50..57  > > > > > > property       @17.@18" ++ ["010"%char] ++ B "@17  50..51  > > > > > > > identifier   `z`" ++ ["010"%char] ++ B "@18  52..56  > > > > > > > prop name    `prop`" ++ ["010"%char] ++ B "@19  59..61  > > > > > > integer        10" ++ ["010"%char])
    (Some 61) None None None [] [] [];
  (* parse_return_and_skip *)
  mkx (B "RETURN *, 1 AS x, 'bar' AS y SKIP 10") false
    (B "@0   0..36  statement           body=@1" ++ ["010"%char] ++ B "@1   0..36  > query             clauses=[@2]" ++ ["010"%char] ++ B "@2   0..36  > > RETURN          *, projections=[@3, @6], SKIP=@9" ++ ["010"%char] ++ B "@3  10..16  > > > projection    expression=@4, alias=@5" ++ ["010"%char] ++ B "@4  10..11  > > > > integer     1" ++ ["010"%char] ++ B "@5  15..16  > > > > identifier  `x`" ++ ["010"%char] ++ B "@6  18..29  > > > projection    expression=@7, alias=@8" ++ ["010"%char] ++ B "@7  18..23  > > > > string      ""bar""" ++ ["010"%char] ++ B "@8  27..28  > > > > identifier  `y`" ++ ["010"%char] ++ B "@9  34..36  > > > integer       10" ++ ["010"%char])
    (Some 36) None None None [] [] [];
  (* parse_return_and_skip_limit *)
  mkx (B "RETURN *, 1 AS x, 'bar' AS y SKIP 10 LIMIT 5") false
    (B " @0   0..44  statement           body=@1" ++ ["010"%char] ++ B " @1   0..44  > query             clauses=[@2]" ++ ["010"%char] ++ B " @2   0..44  > > RETURN          *, projections=[@3, @6], SKIP=@9, LIMIT=@10" ++ ["010"%char] ++ B " @3  10..16  > > > projection    expression=@4, alias=@5" ++ ["010"%char] ++ B " @4  10..11  > > > > integer     1" ++ ["010"%char] ++ B " @5  15..16  > > > > identifier  `x`" ++ ["010"%char] ++ B " @6  18..29  > > > projection    expression=@7, alias=@8" ++ ["010"%char] ++ B " @7  18..23  > > > > string      ""bar""" ++ ["010"%char] ++ B " @8  27..28  > > > > identifier  `y`" ++ ["010"%char] ++ B " @9  34..36  > > > integer       10" ++ ["010"%char] ++ B "@10  43..44  > > > integer       5" ++ ["010"%char])
    (Some 44) None None None [] [] []].
Definition check_return_outcome : list bool := Eval vm_compute in map conforms check_return.
Example check_return_conforms : check_return_outcome = map (fun _ => true) check_return.
Proof. reflexivity. Qed.

(** lib/test/check_set.c *)
Definition check_set : list expectation := [
  (* parse_set_property *)
  mkx (B "/*MATCH*/ SET n.foo = bar;") false
    (B "@0   2..7   block_comment         /*MATCH*/" ++ ["010"%char] ++ B "@1  10..26  statement             body=@2" ++ ["010"%char] ++ B "@2  10..26  > query               clauses=[@3]" ++ ["010"%char] ++ B "@3  10..25  > > SET               items=[@4]" ++ ["010"%char] ++ B "@4  14..25  > > > set property    @5 = @8" ++ ["010"%char] ++ B "@5  14..20  > > > > property      @6.@7" ++ ["010"%char] ++ B "@6  14..15  > > > > > identifier  `n`" ++ ["010"%char] ++ B "@7  16..19  > > > > > prop name   `foo`" ++ ["010"%char] ++ B "@8  22..25  > > > > identifier    `bar`" ++ ["010"%char])
    (Some 26) None None None [] [] [];
  (* parse_set_all_properties *)
  mkx (B "/*MATCH*/ SET n = {foo: bar};") false
    (B "@0   2..7   block_comment             /*MATCH*/" ++ ["010"%char] ++ B "@1  10..29  statement                 body=@2" ++ ["010"%char] ++ B "@2  10..29  > query                   clauses=[@3]" ++ ["010"%char] ++ B "@3  10..28  > > SET                   items=[@4]" ++ ["010"%char] ++ B "@4  14..28  > > > set all properties  @5 = @6" ++ ["010"%char] ++ B "@5  14..15  > > > > identifier        `n`" ++ ["010"%char] ++ B "@6  18..28  > > > > map               {@7:@8}" ++ ["010"%char] ++ B "@7  19..22  > > > > > prop name       `foo`" ++ ["010"%char] ++ B "@8  24..27  > > > > > identifier      `bar`" ++ ["010"%char])
    (Some 29) None None None [] [] [];
  (* parse_set_nested_property *)
  mkx (B "/*MATCH*/ SET n.foo.bar = baz;") false
    (B " @0   2..7   block_comment           /*MATCH*/" ++ ["010"%char] ++ B " @1  10..30  statement               body=@2" ++ ["010"%char] ++ B " @2  10..30  > query                 clauses=[@3]" ++ ["010"%char] ++ B " @3  10..29  > > SET                 items=[@4]" ++ ["010"%char] ++ B " @4  14..29  > > > set property      @5 = @10" ++ ["010"%char] ++ B " @5  14..24  > > > > property        @6.@9" ++ ["010"%char] ++ B " @6  14..19  > > > > > property      @7.@8" ++ ["010"%char] ++ B " @7  14..15  > > > > > > identifier  `n`" ++ ["010"%char] ++ B " @8  16..19  > > > > > > prop name   `foo`" ++ ["010"%char] ++ B " @9  20..23  > > > > > prop name     `bar`" ++ ["010"%char] ++ B "@10  26..29  > > > > identifier      `baz`" ++ ["010"%char])
    (Some 30) None None None [] [] [];
  (* parse_set_expression_property *)
  mkx (B "/*MATCH*/ SET (n.foo).bar = baz;") false
    (B " @0   2..7   block_comment           /*MATCH*/" ++ ["010"%char] ++ B " @1  10..32  statement               body=@2" ++ ["010"%char] ++ B " @2  10..32  > query                 clauses=[@3]" ++ ["010"%char] ++ B " @3  10..31  > > SET                 items=[@4]" ++ ["010"%char] ++ B " @4  14..31  > > > set property      @5 = @10" ++ ["010"%char] ++ B " @5  14..26  > > > > property        @6.@9" ++ ["010"%char] ++ B " @6  15..20  > > > > > property      @7.@8" ++ ["010"%char] ++ B " @7  15..16  > > > > > > identifier  `n`" ++ ["010"%char] ++ B " @8  17..20  > > > > > > prop name   `foo`" ++ ["010"%char] ++ B " @9  22..25  > > > > > prop name     `bar`" ++ ["010"%char] ++ B "@10  28..31  > > > > identifier      `baz`" ++ ["010"%char])
    (Some 32) None None None [] [] [];
  (* parse_merge_properties *)
  mkx (B "/*MATCH*/ SET n += {foo: bar};") false
    (B "@0   2..7   block_comment           /*MATCH*/" ++ ["010"%char] ++ B "@1  10..30  statement               body=@2" ++ ["010"%char] ++ B "@2  10..30  > query                 clauses=[@3]" ++ ["010"%char] ++ B "@3  10..29  > > SET                 items=[@4]" ++ ["010"%char] ++ B "@4  14..29  > > > merge properties  @5 += @6" ++ ["010"%char] ++ B "@5  14..15  > > > > identifier      `n`" ++ ["010"%char] ++ B "@6  19..29  > > > > map             {@7:@8}" ++ ["010"%char] ++ B "@7  20..23  > > > > > prop name     `foo`" ++ ["010"%char] ++ B "@8  25..28  > > > > > identifier    `bar`" ++ ["010"%char])
    (Some 30) None None None [] [] [];
  (* parse_set_labels *)
  mkx (B "/*MATCH*/ SET n:Foo:Bar;") false
    (B "@0   2..7   block_comment       /*MATCH*/" ++ ["010"%char] ++ B "@1  10..24  statement           body=@2" ++ ["010"%char] ++ B "@2  10..24  > query             clauses=[@3]" ++ ["010"%char] ++ B "@3  10..23  > > SET             items=[@4]" ++ ["010"%char] ++ B "@4  14..23  > > > set labels    @5:@6:@7" ++ ["010"%char] ++ B "@5  14..15  > > > > identifier  `n`" ++ ["010"%char] ++ B "@6  15..19  > > > > label       :`Foo`" ++ ["010"%char] ++ B "@7  19..23  > > > > label       :`Bar`" ++ ["010"%char])
    (Some 24) None None None [] [] []].
Definition check_set_outcome : list bool := Eval vm_compute in map conforms check_set.
Example check_set_conforms : check_set_outcome = map (fun _ => true) check_set.
Proof. reflexivity. Qed.

(** lib/test/check_start.c *)
Definition check_start : list expectation := [
  (* parse_node_index_lookup *)
  mkx (B "START n=node:index(foo = 'bar');") false
    (B "@0   0..32  statement                body=@1" ++ ["010"%char] ++ B "@1   0..32  > query                  clauses=[@2]" ++ ["010"%char] ++ B "@2   0..31  > > START                points=[@3]" ++ ["010"%char] ++ B "@3   6..31  > > > node index lookup  @4 = node:@5(@6 = @7)" ++ ["010"%char] ++ B "@4   6..7   > > > > identifier       `n`" ++ ["010"%char] ++ B "@5  13..18  > > > > index name       `index`" ++ ["010"%char] ++ B "@6  19..22  > > > > prop name        `foo`" ++ ["010"%char] ++ B "@7  25..30  > > > > string           ""bar""" ++ ["010"%char])
    (Some 32) None None None [] [] [];
  (* parse_node_index_query *)
  mkx (B "START n=node:index('bar');") false
    (B "@0   0..26  statement               body=@1" ++ ["010"%char] ++ B "@1   0..26  > query                 clauses=[@2]" ++ ["010"%char] ++ B "@2   0..25  > > START               points=[@3]" ++ ["010"%char] ++ B "@3   6..25  > > > node index query  @4 = node:@5(@6)" ++ ["010"%char] ++ B "@4   6..7   > > > > identifier      `n`" ++ ["010"%char] ++ B "@5  13..18  > > > > index name      `index`" ++ ["010"%char] ++ B "@6  19..24  > > > > string          ""bar""" ++ ["010"%char])
    (Some 26) None None None [] [] [];
  (* parse_node_id_lookup *)
  mkx (B "START n=node(65, 78, 3, 0) // find nodes" ++ ["010"%char] ++ B "RETURN n;") false
    (B " @0   0..50  statement             body=@1" ++ ["010"%char] ++ B " @1   0..50  > query               clauses=[@2, @10]" ++ ["010"%char] ++ B " @2   0..41  > > START             points=[@3]" ++ ["010"%char] ++ B " @3   6..26  > > > node id lookup  @4 = node(@5, @6, @7, @8)" ++ ["010"%char] ++ B " @4   6..7   > > > > identifier    `n`" ++ ["010"%char] ++ B " @5  13..15  > > > > integer       65" ++ ["010"%char] ++ B " @6  17..19  > > > > integer       78" ++ ["010"%char] ++ B " @7  21..22  > > > > integer       3" ++ ["010"%char] ++ B " @8  24..25  > > > > integer       0" ++ ["010"%char] ++ B " @9  29..40  > > > line_comment    // find nodes" ++ ["010"%char] ++ B "@10  41..49  > > RETURN            projections=[@11]" ++ ["010"%char] ++ B "@11  48..49  > > > projection      expression=@12" ++ ["010"%char] ++ B "@12  48..49  > > > > identifier    `n`" ++ ["010"%char])
    (Some 50) None None None [] [] [];
  (* parse_all_nodes_scan *)
  mkx (B "START n = node(*)" ++ ["010"%char] ++ B "RETURN /* all nodes */ n;") false
    (B "@0   0..43  statement             body=@1" ++ ["010"%char] ++ B "@1   0..43  > query               clauses=[@2, @5]" ++ ["010"%char] ++ B "@2   0..18  > > START             points=[@3]" ++ ["010"%char] ++ B "@3   6..17  > > > all nodes scan  identifier=@4" ++ ["010"%char] ++ B "@4   6..7   > > > > identifier    `n`" ++ ["010"%char] ++ B "@5  18..42  > > RETURN            projections=[@7]" ++ ["010"%char] ++ B "@6  27..38  > > > block_comment   /* all nodes */" ++ ["010"%char] ++ B "@7  41..42  > > > projection      expression=@8" ++ ["010"%char] ++ B "@8  41..42  > > > > identifier    `n`" ++ ["010"%char])
    (Some 43) None None None [] [] [];
  (* parse_rel_index_lookup *)
  mkx (B "START n=rel:index(foo = 'bar');") false
    (B "@0   0..31  statement               body=@1" ++ ["010"%char] ++ B "@1   0..31  > query                 clauses=[@2]" ++ ["010"%char] ++ B "@2   0..30  > > START               points=[@3]" ++ ["010"%char] ++ B "@3   6..30  > > > rel index lookup  @4 = rel:@5(@6 = @7)" ++ ["010"%char] ++ B "@4   6..7   > > > > identifier      `n`" ++ ["010"%char] ++ B "@5  12..17  > > > > index name      `index`" ++ ["010"%char] ++ B "@6  18..21  > > > > prop name       `foo`" ++ ["010"%char] ++ B "@7  24..29  > > > > string          ""bar""" ++ ["010"%char])
    (Some 31) None None None [] [] [];
  (* parse_rel_index_query *)
  mkx (B "START n=rel:index('bar');") false
    (B "@0   0..25  statement              body=@1" ++ ["010"%char] ++ B "@1   0..25  > query                clauses=[@2]" ++ ["010"%char] ++ B "@2   0..24  > > START              points=[@3]" ++ ["010"%char] ++ B "@3   6..24  > > > rel index query  @4 = rel:@5(@6)" ++ ["010"%char] ++ B "@4   6..7   > > > > identifier     `n`" ++ ["010"%char] ++ B "@5  12..17  > > > > index name     `index`" ++ ["010"%char] ++ B "@6  18..23  > > > > string         ""bar""" ++ ["010"%char])
    (Some 25) None None None [] [] [];
  (* parse_rel_id_lookup *)
  mkx (B "START n=rel(65, 78, 3, 0) // find nodes" ++ ["010"%char] ++ B "RETURN n;") false
    (B " @0   0..49  statement            body=@1" ++ ["010"%char] ++ B " @1   0..49  > query              clauses=[@2, @10]" ++ ["010"%char] ++ B " @2   0..40  > > START            points=[@3]" ++ ["010"%char] ++ B " @3   6..25  > > > rel id lookup  @4 = rel(@5, @6, @7, @8)" ++ ["010"%char] ++ B " @4   6..7   > > > > identifier   `n`" ++ ["010"%char] ++ B " @5  12..14  > > > > integer      65" ++ ["010"%char] ++ B " @6  16..18  > > > > integer      78" ++ ["010"%char] ++ B " @7  20..21  > > > > integer      3" ++ ["010"%char] ++ B " @8  23..24  > > > > integer      0" ++ ["010"%char] ++ B " @9  28..39  > > > line_comment   // find nodes" ++ ["010"%char] ++ B "@10  40..48  > > RETURN           projections=[@11]" ++ ["010"%char] ++ B "@11  47..48  > > > projection     expression=@12" ++ ["010"%char] ++ B "@12  47..48  > > > > identifier   `n`" ++ ["010"%char])
    (Some 49) None None None [] [] [];
  (* parse_all_rels_scan *)
  mkx (B "START n = rel(*)" ++ ["010"%char] ++ B "RETURN /* all rels */ n;") false
    (B "@0   0..41  statement            body=@1" ++ ["010"%char] ++ B "@1   0..41  > query              clauses=[@2, @5]" ++ ["010"%char] ++ B "@2   0..17  > > START            points=[@3]" ++ ["010"%char] ++ B "@3   6..16  > > > all rels scan  identifier=@4" ++ ["010"%char] ++ B "@4   6..7   > > > > identifier   `n`" ++ ["010"%char] ++ B "@5  17..40  > > RETURN           projections=[@7]" ++ ["010"%char] ++ B "@6  26..36  > > > block_comment  /* all rels */" ++ ["010"%char] ++ B "@7  39..40  > > > projection     expression=@8" ++ ["010"%char] ++ B "@8  39..40  > > > > identifier   `n`" ++ ["010"%char])
    (Some 41) None None None [] [] [];
  (* parse_start_with_predicate *)
  mkx (B "START n = node(*) /* predicate */ WHERE n.foo > 1 RETURN n;") false
    (B " @0   0..59  statement             body=@1" ++ ["010"%char] ++ B " @1   0..59  > query               clauses=[@2, @11]" ++ ["010"%char] ++ B " @2   0..50  > > START             points=[@3], WHERE=@6" ++ ["010"%char] ++ B " @3   6..17  > > > all nodes scan  identifier=@4" ++ ["010"%char] ++ B " @4   6..7   > > > > identifier    `n`" ++ ["010"%char] ++ B " @5  20..31  > > > block_comment   /* predicate */" ++ ["010"%char] ++ B " @6  40..50  > > > comparison      @7 > @10" ++ ["010"%char] ++ B " @7  40..46  > > > > property      @8.@9" ++ ["010"%char] ++ B " @8  40..41  > > > > > identifier  `n`" ++ ["010"%char] ++ B " @9  42..45  > > > > > prop name   `foo`" ++ ["010"%char] ++ B "@10  48..49  > > > > integer       1" ++ ["010"%char] ++ B "@11  50..58  > > RETURN            projections=[@12]" ++ ["010"%char] ++ B "@12  57..58  > > > projection      expression=@13" ++ ["010"%char] ++ B "@13  57..58  > > > > identifier    `n`" ++ ["010"%char])
    (Some 59) None None None [] [] []].
Definition check_start_outcome : list bool := Eval vm_compute in map conforms check_start.
Example check_start_conforms : check_start_outcome = map (fun _ => true) check_start.
Proof. reflexivity. Qed.

(** lib/test/check_statement.c *)
Definition check_statement : list expectation := [
  (* parse_statement_with_no_options *)
  mkx (B "RETURN 1;") false
    (B "@0  0..9  statement           body=@1" ++ ["010"%char] ++ B "@1  0..9  > query             clauses=[@2]" ++ ["010"%char] ++ B "@2  0..8  > > RETURN          projections=[@3]" ++ ["010"%char] ++ B "@3  7..8  > > > projection    expression=@4, alias=@5" ++ ["010"%char] ++ B "@4  7..8  > > > > integer     1" ++ ["010"%char] ++ B "@5  7..8  > > > > identifier  `1`" ++ ["010"%char])
    (Some 9) None (Some 1) None [] [] [];
  (* parse_statement_with_cypher_option *)
  mkx (B "CYPHER RETURN 1;") false
    (B "@0   0..16  statement           options=[@1], body=@2" ++ ["010"%char] ++ B "@1   0..7   > CYPHER" ++ ["010"%char] ++ B "@2   7..16  > query             clauses=[@3]" ++ ["010"%char] ++ B "@3   7..15  > > RETURN          projections=[@4]" ++ ["010"%char] ++ B "@4  14..15  > > > projection    expression=@5, alias=@6" ++ ["010"%char] ++ B "@5  14..15  > > > > integer     1" ++ ["010"%char] ++ B "@6  14..15  > > > > identifier  `1`" ++ ["010"%char])
    None None (Some 1) None [] [] [];
  (* parse_statement_with_cypher_option_containing_version *)
  mkx (B "CYPHER 3.0 RETURN 1;") false
    (B "@0   0..20  statement           options=[@1], body=@3" ++ ["010"%char] ++ B "@1   0..10  > CYPHER            version=@2" ++ ["010"%char] ++ B "@2   7..10  > > string          ""3.0""" ++ ["010"%char] ++ B "@3  11..20  > query             clauses=[@4]" ++ ["010"%char] ++ B "@4  11..19  > > RETURN          projections=[@5]" ++ ["010"%char] ++ B "@5  18..19  > > > projection    expression=@6, alias=@7" ++ ["010"%char] ++ B "@6  18..19  > > > > integer     1" ++ ["010"%char] ++ B "@7  18..19  > > > > identifier  `1`" ++ ["010"%char])
    None None (Some 1) None [] [] [];
  (* parse_statement_with_cypher_option_containing_params *)
  mkx (B "CYPHER runtime=fast RETURN 1;") false
    (B "@0   0..29  statement             options=[@1], body=@5" ++ ["010"%char] ++ B "@1   0..19  > CYPHER              params=[@2]" ++ ["010"%char] ++ B "@2   7..19  > > cypher parameter  @3 = @4" ++ ["010"%char] ++ B "@3   7..14  > > > string          ""runtime""" ++ ["010"%char] ++ B "@4  15..19  > > > string          ""fast""" ++ ["010"%char] ++ B "@5  20..29  > query               clauses=[@6]" ++ ["010"%char] ++ B "@6  20..28  > > RETURN            projections=[@7]" ++ ["010"%char] ++ B "@7  27..28  > > > projection      expression=@8, alias=@9" ++ ["010"%char] ++ B "@8  27..28  > > > > integer       1" ++ ["010"%char] ++ B "@9  27..28  > > > > identifier    `1`" ++ ["010"%char])
    None None (Some 1) None [] [] [];
  (* parse_statement_with_cypher_option_containing_version_and_params *)
  mkx (B "CYPHER 2.3 runtime=fast planner=slow RETURN 1;") false
    (B " @0   0..46  statement             options=[@1], body=@9" ++ ["010"%char] ++ B " @1   0..36  > CYPHER              version=@2, params=[@3, @6]" ++ ["010"%char] ++ B " @2   7..10  > > string            ""2.3""" ++ ["010"%char] ++ B " @3  11..23  > > cypher parameter  @4 = @5" ++ ["010"%char] ++ B " @4  11..18  > > > string          ""runtime""" ++ ["010"%char] ++ B " @5  19..23  > > > string          ""fast""" ++ ["010"%char] ++ B " @6  24..36  > > cypher parameter  @7 = @8" ++ ["010"%char] ++ B " @7  24..31  > > > string          ""planner""" ++ ["010"%char] ++ B " @8  32..36  > > > string          ""slow""" ++ ["010"%char] ++ B " @9  37..46  > query               clauses=[@10]" ++ ["010"%char] ++ B "@10  37..45  > > RETURN            projections=[@11]" ++ ["010"%char] ++ B "@11  44..45  > > > projection      expression=@12, alias=@13" ++ ["010"%char] ++ B "@12  44..45  > > > > integer       1" ++ ["010"%char] ++ B "@13  44..45  > > > > identifier    `1`" ++ ["010"%char])
    None None (Some 1) None [] [] [];
  (* parse_statement_with_explain_option *)
  mkx (B "EXPLAIN RETURN 1;") false
    (B "@0   0..17  statement           options=[@1], body=@2" ++ ["010"%char] ++ B "@1   0..7   > EXPLAIN" ++ ["010"%char] ++ B "@2   8..17  > query             clauses=[@3]" ++ ["010"%char] ++ B "@3   8..16  > > RETURN          projections=[@4]" ++ ["010"%char] ++ B "@4  15..16  > > > projection    expression=@5, alias=@6" ++ ["010"%char] ++ B "@5  15..16  > > > > integer     1" ++ ["010"%char] ++ B "@6  15..16  > > > > identifier  `1`" ++ ["010"%char])
    None None (Some 1) None [] [] [];
  (* parse_statement_with_profile_option *)
  mkx (B "PROFILE RETURN 1;") false
    (B "@0   0..17  statement           options=[@1], body=@2" ++ ["010"%char] ++ B "@1   0..7   > PROFILE" ++ ["010"%char] ++ B "@2   8..17  > query             clauses=[@3]" ++ ["010"%char] ++ B "@3   8..16  > > RETURN          projections=[@4]" ++ ["010"%char] ++ B "@4  15..16  > > > projection    expression=@5, alias=@6" ++ ["010"%char] ++ B "@5  15..16  > > > > integer     1" ++ ["010"%char] ++ B "@6  15..16  > > > > identifier  `1`" ++ ["010"%char])
    None None (Some 1) None [] [] [];
  (* parse_statement_with_multiple_options *)
  mkx (B "CYPHER 3.0 PROFILE RETURN 1;") false
    (B "@0   0..28  statement           options=[@1, @3], body=@4" ++ ["010"%char] ++ B "@1   0..10  > CYPHER            version=@2" ++ ["010"%char] ++ B "@2   7..10  > > string          ""3.0""" ++ ["010"%char] ++ B "@3  11..18  > PROFILE" ++ ["010"%char] ++ B "@4  19..28  > query             clauses=[@5]" ++ ["010"%char] ++ B "@5  19..27  > > RETURN          projections=[@6]" ++ ["010"%char] ++ B "@6  26..27  > > > projection    expression=@7, alias=@8" ++ ["010"%char] ++ B "@7  26..27  > > > > integer     1" ++ ["010"%char] ++ B "@8  26..27  > > > > identifier  `1`" ++ ["010"%char])
    None None (Some 1) None [] [] []].
Definition check_statement_outcome : list bool := Eval vm_compute in map conforms check_statement.
Example check_statement_conforms : check_statement_outcome = map (fun _ => true) check_statement.
Proof. reflexivity. Qed.

(** lib/test/check_union.c *)
Definition check_union : list expectation := [
  (* parse_union *)
  mkx (B "RETURN 1 UNION RETURN 2;") false
    (B " @0   0..24  statement           body=@1" ++ ["010"%char] ++ B " @1   0..24  > query             clauses=[@2, @6, @7]" ++ ["010"%char] ++ B " @2   0..9   > > RETURN          projections=[@3]" ++ ["010"%char] ++ B " @3   7..9   > > > projection    expression=@4, alias=@5" ++ ["010"%char] ++ B " @4   7..8   > > > > integer     1" ++ ["010"%char] ++ B " @5   7..9   > > > > identifier  `1`" ++ ["010"%char] ++ B " @6   9..15  > > UNION" ++ ["010"%char] ++ B " @7  15..23  > > RETURN          projections=[@8]" ++ ["010"%char] ++ B " @8  22..23  > > > projection    expression=@9, alias=@10" ++ ["010"%char] ++ B " @9  22..23  > > > > integer     2" ++ ["010"%char] ++ B "@10  22..23  > > > > identifier  `2`" ++ ["010"%char])
    (Some 24) None None None [] [] [];
  (* parse_union_all *)
  mkx (B "MATCH (x:Foo) RETURN x UNION ALL MATCH (x:Bar) RETURN x;") false
    (B " @0   0..56  statement               body=@1" ++ ["010"%char] ++ B " @1   0..56  > query                 clauses=[@2, @8, @11, @12, @18]" ++ ["010"%char] ++ B " @2   0..14  > > MATCH               pattern=@3" ++ ["010"%char] ++ B " @3   6..13  > > > pattern           paths=[@4]" ++ ["010"%char] ++ B " @4   6..13  > > > > pattern path    (@5)" ++ ["010"%char] ++ B " @5   6..13  > > > > > node pattern  (@6:@7)" ++ ["010"%char] ++ B " @6   7..8   > > > > > > identifier  `x`" ++ ["010"%char] ++ B " @7   8..12  > > > > > > label       :`Foo`" ++ ["010"%char] ++ B " @8  14..23  > > RETURN              projections=[@9]" ++ ["010"%char] ++ B " @9  21..23  > > > projection        expression=@10" ++ ["010"%char] ++ B "@10  21..22  > > > > identifier      `x`" ++ ["010"%char] ++ B "@11  23..33  > > UNION               ALL" ++ ["010"%char] ++ B "@12  33..47  > > MATCH               pattern=@13" ++ ["010"%char] ++ B "@13  39..46  > > > pattern           paths=[@14]" ++ ["010"%char] ++ B "@14  39..46  > > > > pattern path    (@15)" ++ ["010"%char] ++ B "@15  39..46  > > > > > node pattern  (@16:@17)" ++ ["010"%char] ++ B "@16  40..41  > > > > > > identifier  `x`" ++ ["010"%char] ++ B "@17  41..45  > > > > > > label       :`Bar`" ++ ["010"%char] ++ B "@18  47..55  > > RETURN              projections=[@19]" ++ ["010"%char] ++ B "@19  54..55  > > > projection        expression=@20" ++ ["010"%char] ++ B "@20  54..55  > > > > identifier      `x`" ++ ["010"%char])
    (Some 56) None None None [] [] []].
Definition check_union_outcome : list bool := Eval vm_compute in map conforms check_union.
Example check_union_conforms : check_union_outcome = map (fun _ => true) check_union.
Proof. reflexivity. Qed.

(** lib/test/check_unwind.c *)
Definition check_unwind : list expectation := [
  (* parse_unwind *)
  mkx (B "UNWIND [1,2,3] AS x RETURN x;") false
    (B " @0   0..29  statement           body=@1" ++ ["010"%char] ++ B " @1   0..29  > query             clauses=[@2, @8]" ++ ["010"%char] ++ B " @2   0..20  > > UNWIND          expression=@3, alias=@7" ++ ["010"%char] ++ B " @3   7..14  > > > collection    [@4, @5, @6]" ++ ["010"%char] ++ B " @4   8..9   > > > > integer     1" ++ ["010"%char] ++ B " @5  10..11  > > > > integer     2" ++ ["010"%char] ++ B " @6  12..13  > > > > integer     3" ++ ["010"%char] ++ B " @7  18..19  > > > identifier    `x`" ++ ["010"%char] ++ B " @8  20..28  > > RETURN          projections=[@9]" ++ ["010"%char] ++ B " @9  27..28  > > > projection    expression=@10" ++ ["010"%char] ++ B "@10  27..28  > > > > identifier  `x`" ++ ["010"%char])
    (Some 29) None None None [] [] []].
Definition check_unwind_outcome : list bool := Eval vm_compute in map conforms check_unwind.
Example check_unwind_conforms : check_unwind_outcome = map (fun _ => true) check_unwind.
Proof. reflexivity. Qed.

(** lib/test/check_with.c *)
Definition check_with : list expectation := [
  (* parse_simple_with *)
  mkx (B "WITH 1 AS x, 'bar' AS y RETURN x, y") false
    (B " @0   0..35  statement           body=@1" ++ ["010"%char] ++ B " @1   0..35  > query             clauses=[@2, @9]" ++ ["010"%char] ++ B " @2   0..24  > > WITH            projections=[@3, @6]" ++ ["010"%char] ++ B " @3   5..11  > > > projection    expression=@4, alias=@5" ++ ["010"%char] ++ B " @4   5..6   > > > > integer     1" ++ ["010"%char] ++ B " @5  10..11  > > > > identifier  `x`" ++ ["010"%char] ++ B " @6  13..24  > > > projection    expression=@7, alias=@8" ++ ["010"%char] ++ B " @7  13..18  > > > > string      ""bar""" ++ ["010"%char] ++ B " @8  22..23  > > > > identifier  `y`" ++ ["010"%char] ++ B " @9  24..35  > > RETURN          projections=[@10, @12]" ++ ["010"%char] ++ B "@10  31..32  > > > projection    expression=@11" ++ ["010"%char] ++ B "@11  31..32  > > > > identifier  `x`" ++ ["010"%char] ++ B "@12  34..35  > > > projection    expression=@13" ++ ["010"%char] ++ B "@13  34..35  > > > > identifier  `y`" ++ ["010"%char])
    (Some 35) None None None [] [] [];
  (* parse_distinct_with *)
  mkx (B "WITH DISTINCT 1 AS x, 'bar' AS y RETURN x, y") false
    (B " @0   0..44  statement           body=@1" ++ ["010"%char] ++ B " @1   0..44  > query             clauses=[@2, @9]" ++ ["010"%char] ++ B " @2   0..33  > > WITH            DISTINCT, projections=[@3, @6]" ++ ["010"%char] ++ B " @3  14..20  > > > projection    expression=@4, alias=@5" ++ ["010"%char] ++ B " @4  14..15  > > > > integer     1" ++ ["010"%char] ++ B " @5  19..20  > > > > identifier  `x`" ++ ["010"%char] ++ B " @6  22..33  > > > projection    expression=@7, alias=@8" ++ ["010"%char] ++ B " @7  22..27  > > > > string      ""bar""" ++ ["010"%char] ++ B " @8  31..32  > > > > identifier  `y`" ++ ["010"%char] ++ B " @9  33..44  > > RETURN          projections=[@10, @12]" ++ ["010"%char] ++ B "@10  40..41  > > > projection    expression=@11" ++ ["010"%char] ++ B "@11  40..41  > > > > identifier  `x`" ++ ["010"%char] ++ B "@12  43..44  > > > projection    expression=@13" ++ ["010"%char] ++ B "@13  43..44  > > > > identifier  `y`" ++ ["010"%char])
    (Some 44) None None None [] [] [];
  (* parse_with_including_existing *)
  mkx (B "WITH *, 1 AS x, 'bar' AS y RETURN x, y") false
    (B " @0   0..38  statement           body=@1" ++ ["010"%char] ++ B " @1   0..38  > query             clauses=[@2, @9]" ++ ["010"%char] ++ B " @2   0..27  > > WITH            *, projections=[@3, @6]" ++ ["010"%char] ++ B " @3   8..14  > > > projection    expression=@4, alias=@5" ++ ["010"%char] ++ B " @4   8..9   > > > > integer     1" ++ ["010"%char] ++ B " @5  13..14  > > > > identifier  `x`" ++ ["010"%char] ++ B " @6  16..27  > > > projection    expression=@7, alias=@8" ++ ["010"%char] ++ B " @7  16..21  > > > > string      ""bar""" ++ ["010"%char] ++ B " @8  25..26  > > > > identifier  `y`" ++ ["010"%char] ++ B " @9  27..38  > > RETURN          projections=[@10, @12]" ++ ["010"%char] ++ B "@10  34..35  > > > projection    expression=@11" ++ ["010"%char] ++ B "@11  34..35  > > > > identifier  `x`" ++ ["010"%char] ++ B "@12  37..38  > > > projection    expression=@13" ++ ["010"%char] ++ B "@13  37..38  > > > > identifier  `y`" ++ ["010"%char])
    (Some 38) None None None [] [] [];
  (* parse_with_and_order_by *)
  mkx (B "WITH 1 AS x, 'bar' AS y ORDER BY x DESC, y ASC, z.prop + 10") false
    (B " @0   0..59  statement                  body=@1" ++ ["010"%char] ++ B " @1   0..59  > query                    clauses=[@2]" ++ ["010"%char] ++ B " @2   0..59  > > WITH                   projections=[@3, @6], ORDER BY=@9" ++ ["010"%char] ++ B " @3   5..11  > > > projection           expression=@4, alias=@5" ++ ["010"%char] ++ B " @4   5..6   > > > > integer            1" ++ ["010"%char] ++ B " @5  10..11  > > > > identifier         `x`" ++ ["010"%char] ++ B " @6  13..24  > > > projection           expression=@7, alias=@8" ++ ["010"%char] ++ B " @7  13..18  > > > > string             ""bar""" ++ ["010"%char] ++ B " @8  22..23  > > > > identifier         `y`" ++ ["010"%char] ++ B " @9  24..59  > > > ORDER BY             items=[@10, @12, @14]" ++ ["010"%char] ++ B "@10  33..39  > > > > sort item          expression=@11, DESCENDING" ++ ["010"%char] ++ B "@11  33..34  > > > > > identifier       `x`" ++ ["010"%char] ++ B "@12  41..46  > > > > sort item          expression=@13, ASCENDING" ++ ["010"%char] ++ B "@13  41..42  > > > > > identifier       `y`" ++ ["010"%char] ++ B "@14  48..59  > > > > sort item          expression=@15, ASCENDING" ++ ["010"%char] ++ B "@15  48..59  > > > > > binary operator  @16 + @19" ++ ["010"%char] ++ B "@16  48..55  > > > > > > property       @17.@18" ++ ["010"%char] ++ B "@17  48..49  > > > > > > > identifier   `z`" ++ ["010"%char] ++ B "@18  50..54  > > > > > > > prop name    `prop`" ++ ["010"%char] ++ B "@19  57..59  > > > > > > integer        10" ++ ["010"%char])
    (Some 59) None None None [] [] [];
  (* parse_with_and_skip *)
  mkx (B "WITH *, 1 AS x, 'bar' AS y SKIP 10") false
    (B "@0   0..34  statement           body=@1" ++ ["010"%char] ++ B "@1   0..34  > query             clauses=[@2]" ++ ["010"%char] ++ B "@2   0..34  > > WITH            *, projections=[@3, @6], SKIP=@9" ++ ["010"%char] ++ B "@3   8..14  > > > projection    expression=@4, alias=@5" ++ ["010"%char] ++ B "@4   8..9   > > > > integer     1" ++ ["010"%char] ++ B "@5  13..14  > > > > identifier  `x`" ++ ["010"%char] ++ B "@6  16..27  > > > projection    expression=@7, alias=@8" ++ ["010"%char] ++ B "@7  16..21  > > > > string      ""bar""" ++ ["010"%char] ++ B "@8  25..26  > > > > identifier  `y`" ++ ["010"%char] ++ B "@9  32..34  > > > integer       10" ++ ["010"%char])
    (Some 34) None None None [] [] [];
  (* parse_with_and_skip_limit *)
  mkx (B "WITH *, 1 AS x, 'bar' AS y SKIP 10 LIMIT 5") false
    (B " @0   0..42  statement           body=@1" ++ ["010"%char] ++ B " @1   0..42  > query             clauses=[@2]" ++ ["010"%char] ++ B " @2   0..42  > > WITH            *, projections=[@3, @6], SKIP=@9, LIMIT=@10" ++ ["010"%char] ++ B " @3   8..14  > > > projection    expression=@4, alias=@5" ++ ["010"%char] ++ B " @4   8..9   > > > > integer     1" ++ ["010"%char] ++ B " @5  13..14  > > > > identifier  `x`" ++ ["010"%char] ++ B " @6  16..27  > > > projection    expression=@7, alias=@8" ++ ["010"%char] ++ B " @7  16..21  > > > > string      ""bar""" ++ ["010"%char] ++ B " @8  25..26  > > > > identifier  `y`" ++ ["010"%char] ++ B " @9  32..34  > > > integer       10" ++ ["010"%char] ++ B "@10  41..42  > > > integer       5" ++ ["010"%char])
    (Some 42) None None None [] [] [];
  (* parse_with_and_predicate *)
  mkx (B "WITH * WHERE n.foo > 10") false
    (B "@0   0..23  statement             body=@1" ++ ["010"%char] ++ B "@1   0..23  > query               clauses=[@2]" ++ ["010"%char] ++ B "@2   0..23  > > WITH              *, projections=[], WHERE=@3" ++ ["010"%char] ++ B "@3  13..23  > > > comparison      @4 > @7" ++ ["010"%char] ++ B "@4  13..19  > > > > property      @5.@6" ++ ["010"%char] ++ B "@5  13..14  > > > > > identifier  `n`" ++ ["010"%char] ++ B "@6  15..18  > > > > > prop name   `foo`" ++ ["010"%char] ++ B "@7  21..23  > > > > integer       10" ++ ["010"%char])
    (Some 23) None None None [] [] []].
Definition check_with_outcome : list bool := Eval vm_compute in map conforms check_with.
Example check_with_conforms : check_with_outcome = map (fun _ => true) check_with.
Proof. reflexivity. Qed.

