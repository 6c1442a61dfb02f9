(** * Expressions are read as they are grouped (C22), strings can be written (C35)

    Specification: ExprSpec.v (expressions, their texts, their trees), TermSpec.v
    (what a tree says).
    Model: CypherParse.v (parser.c, parser.leg), OperModel.v (operators.c). *)
From Coq Require Import List Bool Arith ZArith Ascii String Lia.
From Verif Require Import Peg QuickModel ErrModel CypherSyntax AstTypes AstModel CypherParse CypherSpec CypherLoop
  PropCypher SafeSpec LexSpec TermSpec ExprSpec ForwardReturn.
Import ListNotations.
Opaque parse_one cfuel.

(** the parser sees all of the input *)
Definition sees_all (la : lookahead) : Prop := forall s p, List.length s <= la s p.

(** a parse of [text] gives one statement, [t], and no error *)
Definition parses_to (cf : config) (la : lookahead) (fl : pflags) (text : bytes) (t : term) : Prop :=
  exists r root last, parse_all cf la fl text = ARes r last /\ pr_errors r = [] /\ pr_roots r = [root] /\
    pr_directives r = [nid root] /\ term_of root = t.

(** ** Every text of an expression is read as that expression *)
(** Partial: no floats, label checks, map projections, patterns in expressions or
    names without quotes; tokens are followed by one space.  Three texts are left
    out: [NOT $p], a name, a parameter or a constant in parentheses of its own;
    what starts with a map in parentheses (see [bare]); and a list whose first
    element starts with [a IN ] (see [in_led]); the counterexamples are below. *)
Theorem expressions_read_back_partial : forall cf la fl e u x,
  prints 0 e u -> ~ In "`"%char x -> no_newline_in_names (return_text u x) -> sees_all la ->
  parses_to cf la fl (return_text u x) (return_term (ex_term e) x).
Proof. exact return_parse_all. Qed.
Print Assumptions expressions_read_back_partial.

(** The text with the fewest parentheses is read back. *)
Theorem minimal_text_read_back_partial : forall cf la fl e x,
  well_formed e -> clear 0 e -> ~ In "`"%char x -> no_newline_in_names (return_text (show 0 e) x) -> sees_all la ->
  parses_to cf la fl (return_text (show 0 e) x) (return_term (ex_term e) x).
Proof.
  intros cf la fl e x HW HC HX HN Hla. apply expressions_read_back_partial; auto. apply show_prints; assumption.
Qed.
Print Assumptions minimal_text_read_back_partial.

(** No text has two readings. *)
Theorem texts_unambiguous : forall e e' u, prints 0 e u -> prints 0 e' u -> no_newline_in_names (return_text u []) ->
  ex_term e = ex_term e'.
Proof.
  intros e e' u H1 H2 HN.
  destruct (return_parse_all std_config whole plain e u [] H1 (fun H => H) HN) as (r & root & l & A1 & A2 & A3 & A4 & A5);
    [intros s p; unfold whole; lia|].
  destruct (return_parse_all std_config whole plain e' u [] H2 (fun H => H) HN) as (r' & root' & l' & B1 & B2 & B3 & B4 & B5);
    [intros s p; unfold whole; lia|].
  rewrite A1 in B1. injection B1 as -> _. rewrite A3 in B3. injection B3 as ->. rewrite A5 in B5. injection B5 as E. exact E.
Qed.
Print Assumptions texts_unambiguous.

(** *** In general this is false *)
(** (NOT $`p`) - -(NOT $`q`): keywords can be names, so this is also the pattern
    of a node NOT with the properties $p, a relationship and a node NOT with the
    properties $q; and patterns are tried first. *)
Definition looks_like_pattern : ex :=
  EBin OP_MINUS (EUn OP_NOT (EParam (B "p"))) (EUn OP_UNARY_MINUS (EUn OP_NOT (EParam (B "q")))).

Definition root_term (cf : config) (la : lookahead) (fl : pflags) (text : bytes) : option term :=
  match parse_all cf la fl text with
  | ARes r _ => match pr_errors r, pr_roots r, pr_directives r with
                | [], [root], [d] => if Nat.eqb d (nid root) then Some (term_of root) else None
                | _, _, _ => None
                end
  | _ => None
  end.
Lemma root_term_some : forall cf la fl text t, root_term cf la fl text = Some t -> parses_to cf la fl text t.
Proof.
  intros cf la fl text t H. unfold root_term in H. destruct (parse_all cf la fl text) as [r last| |] eqn:E; try discriminate.
  destruct (pr_errors r) eqn:E1; [|discriminate]. destruct (pr_roots r) as [|root [|]] eqn:E2; try discriminate.
  destruct (pr_directives r) as [|d [|]] eqn:E3; try discriminate. destruct (Nat.eqb_spec d (nid root)) as [->|]; [|discriminate].
  injection H as <-. exists r, root, last. auto.
Qed.

Ltac mem_ := solve [repeat (first [left; reflexivity | right])].
Ltac notin_ := cbn [In B list_ascii_of_string app]; let H := fresh in intros H; repeat (destruct H as [H|H]; [discriminate H|]); exact H.
Ltac meets_ :=
  repeat match goal with
  | |- _ /\ _ => split
  | |- True => exact I
  | |- ~ In _ _ => notin_
  | |- In _ _ => mem_
  | |- _ <> _ => discriminate
  | |- Forall _ _ => constructor
  | |- all_in _ _ => let c := fresh in let H := fresh in intros c H; repeat (destruct H as [<-|H]; [mem_|]); destruct H
  | |- context [well_formed] => progress cbn [well_formed all_all opt_all fst snd]
  | |- _ => progress cbn [all_all opt_all fst snd]
  end.

Theorem minimal_text_read_back_refuted : exists e t, well_formed e /\ ~ In "010"%char (show 0 e) /\
  parses_to std_config whole plain (return_text (show 0 e) (B "x")) t /\ t <> return_term (ex_term e) (B "x").
Proof.
  exists looks_like_pattern. destruct (root_term std_config whole plain (return_text (show 0 looks_like_pattern) (B "x"))) as [t|] eqn:E;
    [|exfalso; vm_compute in E; discriminate E]. exists t.
  split; [unfold looks_like_pattern; meets_|]. split; [cbv - [In not]; notin_|]. split; [apply root_term_some; exact E|].
  vm_compute in E. injection E as <-. vm_compute. discriminate.
Qed.
Print Assumptions minimal_text_read_back_refuted.
Example looks_like_pattern_text : show 0 looks_like_pattern = B "( NOT $`p` ) - - ( NOT $`q` ) ".
Proof. reflexivity. Qed.

(** [`a` IN `b`], meant as a list of one truth value, is read as the comprehension
    of the elements of b. *)
Theorem list_of_membership_refuted : exists e t, well_formed e /\ show 0 e = B "[ `a` IN `b` ] " /\
  parses_to std_config whole plain (return_text (show 0 e) (B "x")) (return_term t (B "x")) /\
  ex_term e = T T_COLLECTION [TList [T T_BINARY_OPERATOR [TOper (Some OP_IN); TNode (Some (T T_IDENTIFIER [TStr (B "a")]));
    TNode (Some (T T_IDENTIFIER [TStr (B "b")]))]]] /\
  t = T T_LIST_COMPREHENSION [TNode (Some (T T_IDENTIFIER [TStr (B "a")])); TNode (Some (T T_IDENTIFIER [TStr (B "b")])); TNode None; TNode None].
Proof.
  exists (EList [EBin OP_IN (EIdent (B "a")) (EIdent (B "b"))]). eexists.
  split; [meets_|]. split; [reflexivity|]. split; [|split; reflexivity]. apply root_term_some. vm_compute. reflexivity.
Qed.
Print Assumptions list_of_membership_refuted.

(** *** The hypotheses are met *)
Lemma no_newline_at_all : forall s, ~ In "010"%char s -> no_newline_in_names s.
Proof.
  intros s H a b c ->. apply H. apply in_or_app. right. right. apply in_or_app. right. left. reflexivity.
Qed.
Definition sample : ex :=
  EBin OP_OR
    (EUn OP_NOT (ECmp (EBin OP_PLUS (EInt (B "1")) (EBin OP_MULT (EBin OP_PLUS (EInt (B "2")) (EIdent (B "a"))) (EInt (B "3"))))
      [(OP_LT, EParam (B "p")); (OP_GTE, EBin OP_POW (EInt (B "2")) (EBin OP_POW (EUn OP_UNARY_MINUS (EInt (B "3"))) ENull))]))
    (EBin OP_AND (EBin OP_IN (EStr (B "it's")) (ESlice (EProp (EIdent (B "l")) (B "k")) (Some (EInt (B "0"))) None))
      (EPost OP_IS_NULL (ESub (EIdent (B "m")) (EBin OP_XOR ETrue EFalse)))).
Example sample_text : show 0 sample =
  B "NOT 1 + ( 2 + `a` ) * 3 < $`p` >= 2 ^ - 3 ^ null OR 'it\'s' IN `l` . `k` [ 0 .. ] AND `m` [ true XOR false ] IS NULL ".
Proof. reflexivity. Qed.
Example sample_meets : well_formed sample /\ clear 0 sample /\ no_newline_in_names (return_text (show 0 sample) (B "x")) /\ sees_all whole.
Proof.
  split; [|split; [|split]].
  - unfold sample. meets_.
  - cbn. repeat split; try (intros; lia).
  - apply no_newline_at_all. cbv - [In not]. notin_.
  - intros s p. unfold whole. lia.
Qed.

Definition sample2 : ex :=
  ECase (Some (ECall (B "size") true [EList [EInt (B "1"); EMap [(B "k", ENull); (B "l", EList [])]]; EComp (B "y") (EIdent (B "l"))
      (Some (EBin OP_EQUAL (EIdent (B "y")) (EMap []))) (Some (ECallAll (B "count") false))]))
    [(EOver NoneOf (B "z") (EParam (B "p")) (Some (EPost OP_IS_NULL (EIdent (B "z")))),
      EReduce (B "s") (EInt (B "0")) (B "i") (EOver Extract (B "j") (EList [ETrue]) None) (Some (EBin OP_PLUS (EIdent (B "s")) (EIdent (B "i")))));
     (EUn OP_NOT ENull, EStr (B "n"))]
    (Some (EBin OP_MINUS (ECase None [(ETrue, EFalse)] None) (EBin OP_MINUS (EInt (B "2")) (ECall (B "f") false [])))).
Example sample2_text : show 0 sample2 =
  B ("CASE `size` ( DISTINCT [ 1 , { `k` : null , `l` : [ ] } ] , [ `y` IN `l` WHERE `y` = { } | `count` ( * ) ] ) " ++
     "WHEN NONE ( `z` IN $`p` WHERE `z` IS NULL ) THEN REDUCE ( `s` = 0 , `i` IN EXTRACT ( `j` IN [ true ] ) | `s` + `i` ) " ++
     "WHEN NOT null THEN 'n' ELSE CASE WHEN true THEN false END - ( 2 - `f` ( ) ) END ")%string.
Proof. reflexivity. Qed.
Example sample2_meets : well_formed sample2 /\ clear 0 sample2 /\ no_newline_in_names (return_text (show 0 sample2) (B "x")).
Proof.
  split; [|split].
  - unfold sample2. meets_.
  - cbn. repeat split; try (intros; lia).
  - apply no_newline_at_all. cbv - [In not]. notin_.
Qed.

(** ** Every string can be written *)
(** The literal is the string between quotes, with backslashes in front of quotes
    and backslashes and with \n for a line break. *)
Theorem every_string_has_a_literal : forall cf la fl v, sees_all la ->
  exists literal, quoted_text literal v /\
    parses_to cf la fl (B "RETURN " ++ literal ++ B " AS `x` ;") (return_term (T T_STRING [TStr v]) (B "x")).
Proof.
  intros cf la fl v Hla. exists (quote v). split; [apply quote_text|].
  assert (E : B "RETURN " ++ quote v ++ B " AS `x` ;" = return_text (quote v ++ B " ") (B "x")).
  { unfold return_text. rewrite <- !app_assoc. reflexivity. }
  rewrite E. apply (expressions_read_back_partial cf la fl (EStr v)); [constructor; apply quote_text|cbn; intuition discriminate| |exact Hla].
  apply no_newline_at_all. rewrite <- E. intros H. rewrite !in_app_iff in H.
  destruct H as [H|[H|H]]; [cbn in H; intuition discriminate|exact (quote_no_newline v H)|cbn in H; intuition discriminate].
Qed.
Print Assumptions every_string_has_a_literal.
Example every_string_has_a_literal_meets : sees_all whole /\ quote (B "a\'" ++ ["010"%char]) = B "'a\\\'\n'".
Proof. split; [intros s p; unfold whole; lia|reflexivity]. Qed.
