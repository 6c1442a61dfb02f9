(** * The parser's own checks (C24, C25)

    Specification: SafeSpec.v.  Model: CypherParse.v.  The outcome of
    [parse_each] is [PAssert] when an assertion of the parser fails, [PInvalid]
    when a constructor of ast.h refuses its arguments (in a build without
    assertions: returns NULL with EINVAL) and [PUninit] when an action reads a
    variable that nothing has set. *)
From Coq Require Import List Bool Arith ZArith Ascii String Lia.
From Verif Require Import Peg QuickModel ErrModel CypherSyntax CypherGrammar CypherMatch AstTypes AstModel
  CypherBuild CypherExec CypherParse CypherSpec CypherLoop AstSpec SafeSpec SafeProofs SafeNodes
  DetailModel PrintModel PrintSpec PrintProofs PropCypher PropPrint AstProofs PropAst.
Import ListNotations.

(** ** C25 *)
(** Whatever the input, configuration, flags and callback, no constructor call
    made by the parser's actions is refused and no action reads an unset
    variable. *)
Theorem parser_calls_are_valid : forall cf la cb fl inp,
  parse_each cf la cb fl inp <> PInvalid /\ parse_each cf la cb fl inp <> PUninit.
Proof. exact parse_each_safe. Qed.
Print Assumptions parser_calls_are_valid.

(** Every node of every segment is what its constructor makes of parameters that
    are as documented, types and membership in the children alike, except at the
    positions listed as [parser_differs]; no two nodes delivered by a call have
    the same address. *)
Theorem parser_nodes_as_documented_partial : forall cf la cb fl inp ret segs last,
  parse_each cf la cb fl inp = PRet ret segs last ->
  (forall seg n, In seg segs -> In n (forest (s_roots seg)) -> as_documented n) /\
  NoDup (map nid (flat_map (fun seg => forest (s_roots seg)) segs)).
Proof.
  intros cf la cb fl inp ret segs last H. apply parse_each_documented in H. destruct H as [H1 H2]. split; [|exact H2].
  intros seg n Hs Hn. rewrite Forall_forall in H1. destruct (H1 seg Hs) as [K _]. rewrite Forall_forall in K. auto.
Qed.
Print Assumptions parser_nodes_as_documented_partial.

(** The directive of a segment is one of its roots: a statement or, unless only
    statements are asked for, a client command. *)
Theorem directive_is_root : forall cf la cb fl inp ret segs last seg i,
  parse_each cf la cb fl inp = PRet ret segs last -> In seg segs -> s_directive seg = Some i ->
  exists x, In x (s_roots seg) /\ nid x = i /\
    (nty x = T_STATEMENT \/ pf_only_statements fl = false /\ nty x = T_COMMAND).
Proof.
  intros cf la cb fl inp ret segs last seg i H Hs Hd. apply parse_each_documented in H. destruct H as [H _].
  rewrite Forall_forall in H. destruct (H seg Hs) as [_ K]. exact (K i Hd).
Qed.
Print Assumptions directive_is_root.

Definition mixed_program : bytes := B "MATCH (n:L {p:1})-[r*1..2]->() RETURN n.p; :play 'x'" ++ NL :: B "CALL foo();".
Example mixed_program_meets : exists ret segs last,
  parse_each std_config whole never plain mixed_program = PRet ret segs last /\
  map (fun s => List.length (forest (s_roots s))) segs = [23; 3; 4] /\
  map (fun s => match s_directive s with Some i => true | None => false end) segs = [true; true; true].
Proof. do 3 eexists. split; [vm_compute; reflexivity|]. vm_compute. auto. Qed.

(** At each of the positions in [parser_differs] the parser does pass something
    that is not as documented. *)
Lemma differs_at : forall n i ds ts o, doc_params (nty n) = Some ds ->
  (nth_error ds i = Some (DOne ts) \/ nth_error ds i = Some (DOpt ts) /\ o <> None) ->
  nth_error (nflds n) i = Some (FNode o) ->
  Forall (fun k => o = Some (nid k) -> ~ typed ts k) (nkids n) ->
  forall ex, ~ In (nty n, i) ex -> ~ documented_but ex n.
Proof.
  intros n i ds ts o Hds Hd Hf Hk ex Hx [ps [ds' [H [H2 [_ [_ [H5 [_ H7]]]]]]]].
  rewrite Hds in H5. injection H5 as <-. unfold construct in H. destruct (ctor_kinds (nty n)) as [kk|]; [|discriminate].
  destruct (_ && _); [|discriminate]. injection H as E. rewrite <- E in Hf.
  assert (exists p, nth_error ps i = Some p /\ to_field p = FNode o) as [p [P1 P2]].
  { destruct (nth_error ps i) as [p|] eqn:Ep.
    - exists p. rewrite (map_nth_error to_field _ _ Ep) in Hf. injection Hf as Hf. auto.
    - apply nth_error_None in Ep. assert (nth_error (map to_field ps) i = None) as K
        by (apply nth_error_None; rewrite map_length; exact Ep). congruence. }
  destruct p as [x|l|b|d|q|q|q]; try discriminate P2. injection P2 as P2.
  assert (K : forall y, x = Some y -> ~ typed ts y).
  { intros y ->. rewrite Forall_forall in Hk. apply Hk; [|symmetry; exact P2]. apply H2. eapply nth_error_In; eauto. }
  destruct Hd as [Hd|[Hd Ho]]; specialize (H7 _ _ _ Hd P1 Hx); cbn in H7.
  - destruct H7 as [y [-> [T _]]]. exact (K y eq_refl T).
  - destruct x as [y|]; [|apply Ho; symmetry; exact P2]. destruct (H7 y eq_refl) as [T _]. exact (K y eq_refl T).
Qed.

(** the nodes of type [t] in a parse of [inp] *)
Definition parsed_as (t : asttype) (inp : bytes) : list node :=
  match parse_each std_config whole never plain inp with
  | PRet _ segs _ => filter (fun n => type_eqb (nty n) t) (flat_map (fun s => forest (s_roots s)) segs)
  | _ => []
  end.

Lemma parsed_as_in : forall t inp n l, parsed_as t inp = n :: l -> exists ret segs last seg,
  parse_each std_config whole never plain inp = PRet ret segs last /\ In seg segs /\ In n (forest (s_roots seg)).
Proof.
  intros t inp n l. unfold parsed_as. generalize (parse_each std_config whole never plain inp). intros [r segs last| | | | | ] H; try discriminate.
  assert (K : In n (n :: l)) by (left; reflexivity). rewrite <- H in K. apply filter_In in K. destruct K as [K _].
  apply in_flat_map in K. destruct K as [seg [K1 K2]]. exists r, segs, last, seg. auto.
Qed.

Theorem parser_nodes_as_documented_refuted : forall t i, In (t, i) parser_differs ->
  exists inp ret segs last seg n,
    parse_each std_config whole never plain inp = PRet ret segs last /\ In seg segs /\ In n (forest (s_roots seg)) /\
    nty n = t /\ forall ex, ~ In (t, i) ex -> ~ documented_but ex n.
Proof.
  assert (K : forall t i inp n l, parsed_as t inp = n :: l -> nty n = t ->
    (forall ex, ~ In (nty n, i) ex -> ~ documented_but ex n) ->
    exists inp ret segs last seg n,
    parse_each std_config whole never plain inp = PRet ret segs last /\ In seg segs /\ In n (forest (s_roots seg)) /\
    nty n = t /\ forall ex, ~ In (t, i) ex -> ~ documented_but ex n).
  { intros t i inp n l H <- HX. destruct (parsed_as_in _ _ _ _ H) as (ret & segs & last & seg & H1 & H2 & H3).
    exists inp, ret, segs, last, seg, n. auto. }
  intros t i H. cbn in H.
  repeat (destruct H as [H | H]; [injection H as <- <-|]); [..|destruct H].
  - eapply (K _ _ (B "WITH 1 AS a SKIP 1+1 RETURN a")); [vm_compute; reflexivity|reflexivity|].
    eapply differs_at; [reflexivity|right; split; [reflexivity|]|reflexivity|]; [discriminate|].
    repeat constructor; intros E; try discriminate E; apply not_typed; reflexivity.
  - eapply (K _ _ (B "WITH 1 AS a LIMIT 1+1 RETURN a")); [vm_compute; reflexivity|reflexivity|].
    eapply differs_at; [reflexivity|right; split; [reflexivity|]|reflexivity|]; [discriminate|].
    repeat constructor; intros E; try discriminate E; apply not_typed; reflexivity.
  - eapply (K _ _ (B "RETURN 1 SKIP 1+1")); [vm_compute; reflexivity|reflexivity|].
    eapply differs_at; [reflexivity|right; split; [reflexivity|]|reflexivity|]; [discriminate|].
    repeat constructor; intros E; try discriminate E; apply not_typed; reflexivity.
  - eapply (K _ _ (B "RETURN 1 LIMIT 1+1")); [vm_compute; reflexivity|reflexivity|].
    eapply differs_at; [reflexivity|right; split; [reflexivity|]|reflexivity|]; [discriminate|].
    repeat constructor; intros E; try discriminate E; apply not_typed; reflexivity.
  - eapply (K _ _ (B "RETURN CASE WHEN true THEN 1 END")); [vm_compute; reflexivity|reflexivity|].
    eapply differs_at; [reflexivity|left; reflexivity|reflexivity|].
    repeat constructor; intros E; discriminate E.
  - eapply (K _ _ (B "RETURN [(a)-->(b) | 1]")); [vm_compute; reflexivity|reflexivity|].
    eapply differs_at; [reflexivity|left; reflexivity|reflexivity|].
    repeat constructor; intros E; try discriminate E; apply not_typed; reflexivity.
  - eapply (K _ _ (B "CREATE CONSTRAINT ON ()-[r:R]-() ASSERT EXISTS (r.p)")); [vm_compute; reflexivity|reflexivity|].
    eapply differs_at; [reflexivity|left; reflexivity|reflexivity|].
    repeat constructor; intros E; try discriminate E; apply not_typed; reflexivity.
  - eapply (K _ _ (B "DROP CONSTRAINT ON ()-[r:R]-() ASSERT EXISTS (r.p)")); [vm_compute; reflexivity|reflexivity|].
    eapply differs_at; [reflexivity|left; reflexivity|reflexivity|].
    repeat constructor; intros E; try discriminate E; apply not_typed; reflexivity.
Qed.
Print Assumptions parser_nodes_as_documented_refuted.

(** ** C36, C40 *)
(** The protocol of detail strings and the printing of trees apply to whatever
    the parser delivers. *)
Theorem parsed_detailstr_protocol : forall cf la cb fl inp ret segs last seg n,
  parse_each cf la cb fl inp = PRet ret segs last -> In seg segs -> In n (forest (s_roots seg)) ->
  exists text, forall buf, exists b,
    detailstr (forest_ord (s_roots seg)) n buf (List.length buf) = Some (b, List.length text) /\
    List.length b = List.length buf /\
    forall i, i < List.length text -> S i < List.length buf -> nth_error b i = nth_error text i.
Proof.
  intros cf la cb fl inp ret segs last seg n H Hs Hn. destruct (parsed_printable _ _ _ _ _ _ _ _ _ _ H Hs Hn) as [A C].
  apply detailstr_protocol; assumption.
Qed.
Print Assumptions parsed_detailstr_protocol.

(** Printing a segment.  Partial: as for [cypher_ast_fprint_lines_partial]. *)
Theorem segment_fprint_lines_partial : forall lz junk ac width buf cf la cb fl inp ret segs last seg,
  parse_each cf la cb fl inp = PRet ret segs last -> In seg segs ->
  List.length buf = fprint_bufcap ->
  (forall n, In n (forest (s_roots seg)) -> List.length (dec (nord n)) <= 10) ->
  exists detail, (forall n, In n (forest (s_roots seg)) -> has_detail (forest_ord (s_roots seg)) n (detail n)) /\
  (never_exact fprint_bufcap (map (fun n => List.length (detail n)) (forest (s_roots seg))) ->
  exists cols lines,
    segment_fprint_ast lz junk ac width seg buf = Some (List.concat lines) /\
    Forall (fits cols) (outlines (s_roots seg)) /\
    Forall2 (line_of cols ac width detail) (outlines (s_roots seg)) lines).
Proof.
  intros lz junk ac width buf cf la cb fl inp ret segs last seg H Hs Hb Ho.
  exists (detail_text (forest_ord (s_roots seg))).
  assert (K : forall n, In n (forest (s_roots seg)) -> made n /\ resolved (forest_ord (s_roots seg)) n)
    by (intros n Hn; eapply parsed_printable; eauto).
  split; [intros n Hn; destruct (K n Hn); apply detail_text_ok; assumption|]. intros HN.
  apply fprintv_lines; [exact Hb| |exact HN]. apply Forall_forall. intros n Hn. destruct (K n Hn) as [K1 K2].
  split; [exact K1|]. split; [exact K2|]. split; [apply Ho, Hn|apply detail_text_ok; assumption].
Qed.
Print Assumptions segment_fprint_lines_partial.

(** ** C24 *)
(** Without comments next to dots and without newlines after backquotes, every
    call returns: no assertion fails (block stack, closed block, precedence
    stack, operator stack, error tracking, childless terminals), nothing
    invalid is built, the grammar rejects nothing and the call terminates.
    Missing for the full property: inputs that do have them, for which it is
    false (below). *)
Theorem parser_assertions_hold_partial : forall cf la cb fl inp,
  no_newline_in_names inp -> ~ comment_beside_dot inp ->
  (forall s p, List.length s <= la s p) ->
  exists ret segs last, parse_each cf la cb fl inp = PRet ret segs last.
Proof. exact parse_each_returns. Qed.
Print Assumptions parser_assertions_hold_partial.

Lemma no_newline_means_none : forall inp, ~ In "010"%char inp -> no_newline_in_names inp.
Proof. intros inp H a b c E. apply H. rewrite E, in_app_iff. right. right. rewrite in_app_iff. right. left. reflexivity. Qed.

Lemma no_slash_no_comment : forall inp, ~ In "/"%char inp -> ~ comment_beside_dot inp.
Proof.
  intros inp H [a [w [b [_ D]]]]. apply H.
  destruct D as [D|[D|[D|[t [_ D]]]]]; rewrite D; repeat (rewrite in_app_iff; cbn [In B list_ascii_of_string]); auto 12.
Qed.

Lemma no_dot_no_comment : forall inp, ~ In "."%char inp -> ~ comment_beside_dot inp.
Proof.
  intros inp H [a [w [b [_ D]]]]. apply H.
  destruct D as [D|[D|[D|[t [_ D]]]]]; rewrite D; repeat (rewrite in_app_iff; cbn [In B list_ascii_of_string]); auto 12.
Qed.

(** a statement with dotted names, and one with a comment, meet the hypotheses *)
Definition dotted_program : bytes := B "RETURN a.b (x.y, `z`) AS c;".
Example dotted_program_meets :
  no_newline_in_names dotted_program /\ ~ comment_beside_dot dotted_program /\
  shape (parse_each std_config whole never plain dotted_program) = [(0, 27, 11, 0, false)].
Proof.
  split; [|split].
  - apply no_newline_means_none. cbv. intuition discriminate.
  - apply no_slash_no_comment. cbv. intuition discriminate.
  - vm_compute. reflexivity.
Qed.

Definition commented_program : bytes := B "RETURN /* a" ++ NL :: B "*/ `z` // end".
Example commented_program_meets :
  no_newline_in_names commented_program /\ ~ comment_beside_dot commented_program /\
  shape (parse_each std_config whole never plain commented_program) = [(0, 25, 7, 0, true)].
Proof.
  split; [|split].
  - intros a b c E.
    assert (K : forall l, ~ In "010"%char (skipn 15 l) -> forall a b c, l = a ++ "`"%char :: b ++ "010"%char :: c -> List.length a < 15).
    { intros l H x y z El. destruct (Nat.ltb_spec (List.length x) 15) as [L|L]; [exact L|]. exfalso. apply H.
      rewrite El, skipn_app. apply in_or_app. right. cbn [app]. 
      replace (15 - List.length x) with 0 by lia. cbn [skipn]. right. rewrite in_app_iff. right. left. reflexivity. }
    assert (L : List.length a < 15) by (apply (K commented_program) with (2 := E); cbv; intuition discriminate).
    assert (N : nth_error commented_program (List.length a) = Some "`"%char)
      by (rewrite E, nth_error_app2 by lia; rewrite Nat.sub_diag; reflexivity).
    do 15 (destruct a as [|? a]; [cbv in N; discriminate|]). cbn [List.length] in L. lia.
  - apply no_dot_no_comment. cbv. intuition discriminate.
  - vm_compute. reflexivity.
Qed.

(** Calls abort on some inputs: a comment before the dot of a function name
    ends up inside a node that may have no children; a newline in a backquoted
    name is not counted, and error tracking then sees a column go back. *)
Theorem parser_assertions_hold_refuted :
  parse_each std_config whole never plain (B "RETURN a/**/.b()") = PAssert /\
  parse_each std_config whole never plain (B "CYPHER x=/* RETURN `a" ++ NL :: B "b") = PAssert.
Proof. split; vm_compute; reflexivity. Qed.
Print Assumptions parser_assertions_hold_refuted.

(** each of the two inputs violates exactly one of the two hypotheses *)
Example refuted_beside_dot : comment_beside_dot (B "RETURN a/**/.b()").
Proof. exists (B "RETURN a/*"), [], (B "b()"). split; [constructor|]. right. right. left. reflexivity. Qed.
Example refuted_newline : ~ no_newline_in_names (B "CYPHER x=/* RETURN `a" ++ NL :: B "b").
Proof. intro H. apply (H (B "CYPHER x=/* RETURN ") (B "a") (B "b")). reflexivity. Qed.
