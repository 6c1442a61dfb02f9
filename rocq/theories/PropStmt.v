(** * Statements are read as what they say (C51)

    Specification: StmtSpec.v (statements, their texts, their trees), StmtShow.v
    (one text for each), ExprSpec.v (expressions), TermSpec.v (what a tree says).
    Model: CypherParse.v (parser.c, parser.leg). *)
From Coq Require Import List Bool Arith ZArith Ascii String Lia.
From Verif Require Import Peg QuickModel ErrModel CypherSyntax AstTypes AstModel CypherParse CypherSpec CypherLoop
  PropCypher SafeSpec LexSpec TermSpec ExprSpec StmtSpec StmtShow ForwardStatement ForwardShow PropExpr.
Import ListNotations.
Opaque parse_one cfuel.

(** ** Every text of a statement is read as that statement *)
(** Partial: in the option CYPHER a name does not begin with a digit, and a value has no
    white space and does not begin with '/'; what is missing of expressions
    (see PropExpr.v); names are quoted and tokens are followed by one space (before a comma between pattern parts there is none,
    see below). *)
Theorem statements_read_back_partial : forall cf la fl s u,
  prints_stmt s u -> no_newline_in_names u -> sees_all la -> parses_to cf la fl u (stmt_term s).
Proof. exact stmt_parse_all. Qed.
Print Assumptions statements_read_back_partial.

(** The callback gets the statement in one segment that has no error and ends with
    the statement. *)
Theorem statements_reach_the_callback_partial : forall cf la cb fl s u,
  prints_stmt s u -> no_newline_in_names u -> sees_all la -> (forall segs, cb segs = 0%Z) ->
  exists seg root en, parse_each cf la cb fl u = PRet 0 [seg] (Some en) /\ s_errors seg = [] /\ s_roots seg = [root] /\
    s_directive seg = Some (nid root) /\ s_eof seg = false /\ term_of root = stmt_term s.
Proof. exact stmt_parse. Qed.
Print Assumptions statements_reach_the_callback_partial.

(** Every statement that can be written is read back from its text. *)
Theorem statement_text_read_back_partial : forall cf la fl s,
  good_stmt s -> no_newline_in_names (stmt_text s) -> sees_all la -> parses_to cf la fl (stmt_text s) (stmt_term s).
Proof. intros cf la fl s HG HN Hla. apply statements_read_back_partial; auto. apply show_stmt, HG. Qed.
Print Assumptions statement_text_read_back_partial.

(** No text has two readings. *)
Theorem statement_texts_unambiguous : forall s s' u, prints_stmt s u -> prints_stmt s' u -> no_newline_in_names u ->
  stmt_term s = stmt_term s'.
Proof.
  intros s s' u H1 H2 HN.
  destruct (stmt_parse_all std_config whole plain s u H1 HN) as (r & root & l & A1 & A2 & A3 & A4 & A5);
    [intros ? p; unfold whole; lia|].
  destruct (stmt_parse_all std_config whole plain s' u H2 HN) as (r' & root' & l' & B1 & B2 & B3 & B4 & B5);
    [intros ? p; unfold whole; lia|].
  rewrite A1 in B1. injection B1 as -> _. rewrite A3 in B3. injection B3 as ->. rewrite A5 in B5. exact B5.
Qed.
Print Assumptions statement_texts_unambiguous.

(** *** Blanks are not free in patterns *)
(** Everywhere else a blank before a comma is skipped; between the parts of a
    pattern it is an error. *)
Definition two_nodes : stmt :=
  mkstmt [] (Query [] [Create false [mkpt None Plain (mknp None [] NoProps) []; mkpt None Plain (mknp None [] NoProps) []]]).
Theorem pattern_comma_blank_refuted :
  parses_to std_config whole plain (B "CREATE ( ), ( ) ;") (stmt_term two_nodes) /\
  exists r last, parse_all std_config whole plain (B "CREATE ( ) , ( ) ;") = ARes r last /\ pr_errors r <> [] /\ pr_roots r <> [] /\
    forall root, In root (pr_roots r) -> term_of root <> stmt_term two_nodes.
Proof.
  split; [apply root_term_some; vm_compute; reflexivity|].
  destruct (parse_all std_config whole plain (B "CREATE ( ) , ( ) ;")) as [r last| |] eqn:E;
    [|exfalso; vm_compute in E; discriminate E|exfalso; vm_compute in E; discriminate E].
  exists r, last. split; [reflexivity|]. vm_compute in E. injection E as <- _. vm_compute.
  split; [discriminate|]. split; [discriminate|]. intros root [<-|H]; [discriminate|]. repeat (destruct H as [<-|H]; [discriminate|]). destruct H.
Qed.
Print Assumptions pattern_comma_blank_refuted.

(** *** The hypotheses are met *)
Ltac in_all_ := let c := fresh in let H := fresh in intros c H; repeat (destruct H as [<-|H]; [first [solve [mem_]|solve [cbn [In blanks]; intuition discriminate]]|]); destruct H.
Ltac good_setting_ :=
  split; [eexists; eexists; split; [reflexivity|split; [mem_|in_all_]]|split; [eexists; eexists; split; [reflexivity|discriminate]|in_all_]].
Ltac good_ :=
  repeat match goal with
  | |- _ /\ _ => split
  | |- True => exact I
  | |- good_ex _ => split; [meets_|cbn; repeat split; intros; lia]
  | |- plain_name _ => unfold plain_name; meets_
  | |- digits _ => split; [discriminate|let c := fresh in let H := fresh in intros c H; repeat (destruct H as [<-|H]; [mem_|]); destruct H]
  | |- well_formed _ => meets_
  | |- clear _ _ => cbn; repeat split; intros; lia
  | |- _ <> _ => discriminate
  | |- _ = true -> exists l, OnNode _ = OnNode l => intros _; eexists; reflexivity
  | |- true = false -> _ => discriminate
  | |- false = true -> _ => discriminate
  | |- false = false -> _ => intros _
  | |- _ => progress cbn [good_stmt good_body good_clause good_part good_node good_rel good_props good_steps good_sitem good_ritem good_on good_mhint good_lookup sp_name sp_rel sp_source
      good_list good_projs good_order opt_good all_all fst snd s_body pt_name pt_node pt_links n_name n_labels n_props r_name r_types r_steps r_props r_dir]
  | |- good_stmt _ => unfold good_stmt; cbn [s_opts]
  | |- good_option (Cypher _ _) => unfold good_option; split; [|cbn [In]; intros ? H; repeat (destruct H as [<-|H]; [|]); try contradiction]
  | |- good_option _ => exact I
  | |- good_setting _ => solve [good_setting_]
  | |- good_part _ => unfold good_part
  | |- good_node _ => unfold good_node
  | |- good_rel _ => unfold good_rel
  | |- good_list _ _ => unfold good_list
  | |- good_spoint _ => unfold good_spoint
  | |- good_projs _ _ _ => unfold good_projs
  | |- good_order _ => unfold good_order
  | |- good_return_proj _ => unfold good_return_proj
  | |- exists v, EIdent _ = EIdent v => eexists; reflexivity
  end.
Definition node0 (x : string) (ls : list bytes) : npat := mknp (Some (B x)) ls NoProps.
Definition sample_stmt : stmt :=
  mkstmt [Explain; Cypher (Some (B "2", B "3")) [(B "planner", B "cost")]; Profile; Cypher None []] (Query [Some (B "500"); None]
    [Start [mksp (B "y") false (Ids [B "1"; B "2"]); mksp (B "z") true (Lookup (B "i") (B "k") (ByString (B "v"))); mksp (B "v") true (Search (B "i") (ByParam (B "q")));
            mksp (B "w") false Everything] (Some ETrue);
     LoadCsv true (EStr (B "file:x.csv")) (B "row") (Some (B ";"));
     Match true
       [mkpt (Some (B "p")) Shortest (mknp (Some (B "a")) [B "L"; B "M"] (MapProps [(B "k", EInt (B "1"))]))
          [(mkrp INBOUND (Some (B "r")) [B "T"; B "U"] (Between (Some (B "1")) None) (ParamProps (B "q")), node0 "b" []);
           (mkrp BIDIRECTIONAL None [] (Exactly (B "3")) NoProps, mknp None [] NoProps)];
        mkpt None Plain (node0 "c" [B "N"]) []]
       [UseIndex (B "a") (B "L") (B "k"); UseScan (B "c") (B "N"); UseJoin [B "a"; B "c"]] (Some (ECmp (EProp (EIdent (B "a")) (B "v")) [(OP_LT, EInt (B "3"))]));
     With true true [(EIdent (B "a"), None); (EBin OP_PLUS (EInt (B "1")) (EInt (B "2")), Some (B "s"))]
       [(EIdent (B "s"), false); (EIdent (B "a"), true)] (Some (EInt (B "1"))) (Some (EParam (B "n"))) (Some (EPost OP_IS_NULL (EIdent (B "s"))));
     Unwind (EList [EInt (B "1"); EInt (B "2")]) (B "u");
     Merge (mkpt None Plain (node0 "m" []) [(mkrp OUTBOUND None [B "T"] One NoProps, node0 "a" [])])
       [(true, [SetProp (B "m") [B "x"; B "y"] (EInt (B "0")); SetLabels (B "m") [B "L"]]); (false, [MergeAll (B "m") (EMap [])])];
     Create true [mkpt None Plain (node0 "d" []) []];
     SetC [SetAll (B "d") (EParam (B "props"))];
     Foreach (B "i") (EIdent (B "l")) [Delete true [EIdent (B "i"); ENull]; Foreach (B "j") (EIdent (B "i")) [Remove [RemLabels (B "j") [B "L"]; RemProp (B "j") [B "k"]]]];
     Call (B "proc") [EInt (B "1"); EStr (B "a")] [(B "o", Some (B "o2")); (B "z", None)] (Some ETrue);
     Return false false [(EIdent (B "a"), None); (ECallAll (B "count") false, Some (B "n"))] [(EIdent (B "n"), false)] None (Some (EInt (B "10")));
     Union true;
     Return true true [] [] None None]).
Example sample_stmt_text : stmt_text sample_stmt = B (
  "EXPLAIN CYPHER 2.3 planner = cost PROFILE CYPHER USING PERIODIC COMMIT 500 USING PERIODIC COMMIT " ++
  "START `y` = node ( 1 , 2 ) , `z` = rel : `i` ( `k` = 'v' ) , `v` = rel : `i` ( $`q` ) , `w` = node ( * ) WHERE true " ++
  "LOAD CSV WITH HEADERS FROM 'file:x.csv' AS `row` FIELDTERMINATOR ';' " ++
  "OPTIONAL MATCH `p` = shortestPath ( ( `a` : `L` : `M` { `k` : 1 } ) <-[ `r` : `T` | `U` * 1 .. $`q` ]- ( `b` ) -[ * 3 ]- ( ) ), ( `c` : `N` ) " ++
  "USING INDEX `a` : `L` ( `k` ) USING SCAN `c` : `N` USING JOIN ON `a` , `c` WHERE `a` . `v` < 3 " ++
  "WITH DISTINCT * , `a` , 1 + 2 AS `s` ORDER BY `s` DESC , `a` SKIP 1 LIMIT $`n` WHERE `s` IS NULL " ++
  "UNWIND [ 1 , 2 ] AS `u` " ++
  "MERGE ( `m` ) -[ : `T` ]-> ( `a` ) ON CREATE SET `m` . `x` . `y` = 0 , `m` : `L` ON MATCH SET `m` += { } " ++
  "CREATE UNIQUE ( `d` ) SET `d` = $`props` " ++
  "FOREACH ( `i` IN `l` | DETACH DELETE `i` , null FOREACH ( `j` IN `i` | REMOVE `j` : `L` , `j` . `k` ) ) " ++
  "CALL `proc` ( 1 , 'a' ) YIELD `o` AS `o2` , `z` WHERE true " ++
  "RETURN `a` , `count` ( * ) AS `n` ORDER BY `n` DESC LIMIT 10 UNION ALL RETURN DISTINCT * ;")%string.
Proof. reflexivity. Qed.
Example sample_stmt_meets : good_stmt sample_stmt /\ no_newline_in_names (stmt_text sample_stmt) /\ sees_all whole.
Proof.
  split; [|split].
  - unfold sample_stmt, node0. good_.
  - apply no_newline_at_all. rewrite sample_stmt_text. cbv - [In not]. notin_.
  - intros s p. unfold whole. lia.
Qed.
Definition sample_index : stmt := mkstmt [] (Index true (B "L") [B "p"; B "q"]).
Definition sample_constraint : stmt :=
  mkstmt [Explain] (Constraint false (OnRel true false (B "T")) (B "r") (EProp (EIdent (B "r")) (B "p")) false).
Definition sample_unique : stmt :=
  mkstmt [] (Constraint true (OnNode (B "L")) (B "n") (EProp (EIdent (B "n")) (B "p")) true).
Example sample_schema_texts :
  stmt_text sample_index = B "CREATE INDEX ON : `L` ( `p` , `q` ) ;" /\
  stmt_text sample_constraint = B "EXPLAIN DROP CONSTRAINT ON ( ) < - [ `r` : `T` ] - ( ) ASSERT `r` . `p` ;" /\
  stmt_text sample_unique = B "CREATE CONSTRAINT ON ( `n` : `L` ) ASSERT `n` . `p` IS UNIQUE ;".
Proof. repeat split. Qed.
Example sample_schema_meets : Forall (fun s => good_stmt s /\ no_newline_in_names (stmt_text s)) [sample_index; sample_constraint; sample_unique].
Proof.
  destruct sample_schema_texts as (E1 & E2 & E3).
  constructor; [|constructor; [|constructor; [|constructor]]]; (split; [|apply no_newline_at_all; rewrite ?E1, ?E2, ?E3; cbv - [In not]; notin_]);
    unfold sample_index, sample_constraint, sample_unique; good_.
Qed.

(** The same statement, spelled in another way. *)
Definition spelled : stmt :=
  mkstmt [] (Query [] [Match false [mkpt None Plain (mknp None [] NoProps) [(mkrp BIDIRECTIONAL None [] One NoProps, mknp None [] NoProps)]] [] None;
    Call (B "f") [] [] None]).
Example spelled_texts : stmt_text spelled = B "MATCH ( ) -[ ]- ( ) CALL `f` ( ) ;" /\ prints_stmt spelled (B "MATCH ( ) <--> ( ) CALL `f` ;").
Proof.
  split; [reflexivity|].
  refine (py_stmt [] _ [] (B "MATCH ( ) <--> ( ) CALL `f` ") (ch_none _) _).
  refine (py_query [] _ [] _ (ch_none _) _).
  refine (pcs_more _ (B "MATCH ( ) <--> ( ) ") _ (B "CALL `f` ") _ (pcs_last _ _ _)).
  - refine (pc_match false _ [] None (B "( ) <--> ( ) ") [] [] _ (ch_none _) (mb_none _ _)). exists (B "( ) <--> ( )"). split; [|reflexivity].
    refine (ls_all _ _ (B "( ) <--> ( )") [] [] _ (cm_none _)).
    refine (pp_part None Plain _ _ [] (B "( ) <--> ( )") (mb_none _ _) _).
    pose proof (pn_node None [] NoProps [] [] [] (mb_none _ _) (ch_none _) pp_none) as N.
    refine (ph_path _ _ (B "( )") (B " <--> ( )") N _).
    refine (ch_some _ _ (B " <--> ( )") [] [] _ (ch_none _)).
    refine (pk_link _ _ (B "<-->") (B "( )") _ N). refine (pr_short _ (B "<-") (B "->") _). right. left. reflexivity.
  - refine (pc_call (B "f") [] None None [] [] [] _ pg_none (mb_none _ _) (mb_none _ _)). unfold plain_name. notin_.
Qed.
Definition called : stmt := mkstmt [] (Query [] [Call (B "f") [] [] None]).
Example called_texts : stmt_text called = B "CALL `f` ( ) ;" /\ prints_stmt called (B "CALL `f` YIELD - ;").
Proof.
  split; [reflexivity|].
  refine (py_stmt [] _ [] (B "CALL `f` YIELD - ") (ch_none _) _).
  refine (py_query [] _ [] _ (ch_none _) (pcs_last _ _ _)).
  refine (pc_call_dash (B "f") [] None [] [] _ pg_none (mb_none _ _)). unfold plain_name. notin_.
Qed.
(** An expression after RETURN has its text for its name. *)
Definition bare_sum : ex := EBin OP_PLUS (EInt (B "1")) (EInt (B "2")).
Definition bare_stmt : stmt := mkstmt [] (Query [] [Return false false [(bare_sum, Some (B "1 + 2"))] [] None None]).
Example bare_text : prints_stmt bare_stmt (B "RETURN 1 + 2 ;") /\ no_newline_in_names (B "RETURN 1 + 2 ;").
Proof.
  split; [|apply no_newline_at_all; cbv - [In not]; notin_].
  refine (py_stmt [] _ [] (B "RETURN 1 + 2 ") (ch_none _) _).
  refine (py_query [] _ [] _ (ch_none _) (pcs_last _ _ _)).
  refine (pc_return false false _ [] None None (B "1 + 2 ") [] [] [] (px_list _ _ _ _) _ (mb_none _ _) (mb_none _ _)); [|constructor].
  refine (ls_all _ _ (B "1 + 2 ") [] [] _ (cm_none _)).
  refine (pj_bare bare_sum (B "1 + 2") _ _ _).
  - change (B "1 + 2" ++ B " ") with (show 0 bare_sum). apply show_ex. unfold bare_sum. good_.
  - intros v. discriminate.
  - split; [exists "1"%char, (B " + 2")|exists (B "1 + "), "2"%char]; (split; [reflexivity|cbn; intuition discriminate]).
Qed.
