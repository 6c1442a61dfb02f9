(** * Errors and skipped input (C28)

    Model: CypherParse.v (parser.c, parser.leg), ErrModel.v (errors.c). *)
From Coq Require Import List Bool Arith ZArith Ascii String Lia.
From Verif Require Import Peg QuickModel ErrModel CypherSyntax CypherGrammar CypherMatch AstTypes AstModel
  CypherExec CypherParse CypherSpec CypherLoop PropCypher SkipProofs.
Import ListNotations.

(** a node of the type CYPHER_AST_ERROR somewhere in these trees *)
Definition has_error_node (ts : list node) : Prop := exists n, In n (forest ts) /\ nty n = T_ERROR.

(** ** An error is reported => input was skipped *)
(** Every segment with a parse error contains an error node, i.e. input that was
    skipped. *)
Theorem errors_have_skipped_input : forall cf la cb fl inp ret segs last seg,
  parse_each cf la cb fl inp = PRet ret segs last -> In seg segs ->
  s_errors seg <> [] -> has_error_node (s_roots seg).
Proof. exact parse_each_backed. Qed.
Print Assumptions errors_have_skipped_input.

(** ... and so does a parse result. *)
Theorem result_errors_have_skipped_input : forall cf la fl inp r last,
  parse_all cf la fl inp = ARes r last -> pr_errors r <> [] -> has_error_node (pr_roots r).
Proof.
  intros cf la fl inp r last H He. apply parse_all_each in H. destruct H as [segs [E ->]].
  assert (K : forall segs acc, (forall seg, In seg segs -> s_errors seg <> [] -> has_error_node (s_roots seg)) ->
    (pr_errors acc <> [] -> has_error_node (pr_roots acc)) ->
    pr_errors (fold_left merge_segment segs acc) <> [] -> has_error_node (pr_roots (fold_left merge_segment segs acc))).
  { clear. induction segs as [|seg segs IH]; intros acc H1 H2; [exact H2|]. cbn [fold_left]. apply IH.
    - intros sg Hi. apply H1. right. exact Hi.
    - cbn. intros K. assert (forest (pr_roots acc ++ s_roots seg) = forest (pr_roots acc) ++ forest (s_roots seg)) as F
        by apply flat_map_app.
      unfold has_error_node. rewrite F. destruct (pr_errors acc) as [|x es].
      + destruct (H1 seg (or_introl eq_refl) K) as [n [N1 N2]]. exists n. split; [apply in_or_app; auto|exact N2].
      + destruct H2 as [n [N1 N2]]; [discriminate|]. exists n. split; [apply in_or_app; auto|exact N2]. }
  apply (K segs result0); [|intros C; exfalso; apply C; reflexivity|exact He].
  intros seg Hs Hx. exact (parse_each_backed _ _ _ _ _ _ _ _ _ E Hs Hx).
Qed.
Print Assumptions result_errors_have_skipped_input.

(** ** Input was skipped => an error is reported *)
(** Partial: this holds of the first segment of a call, so of every segment if
    only one is asked for.  For the later segments it is false (below). *)
Theorem skipped_input_reported_partial : forall cf la cb fl inp ret seg segs last,
  parse_each cf la cb fl inp = PRet ret (seg :: segs) last ->
  has_error_node (s_roots seg) -> s_errors seg <> [].
Proof.
  intros cf la cb fl inp ret seg segs last H [n [Hn Ht]]. eapply parse_each_covered; eauto.
Qed.
Print Assumptions skipped_input_reported_partial.

Theorem single_skipped_iff_reported : forall cf la cb fl inp ret segs last seg, pf_single fl = true ->
  parse_each cf la cb fl inp = PRet ret segs last -> In seg segs ->
  (has_error_node (s_roots seg) <-> s_errors seg <> []).
Proof.
  intros cf la cb fl inp ret segs last seg Hfl H Hs. split.
  - assert (List.length segs <= 1) as L by (apply (cypher_callback_stops _ _ _ _ _ _ _ _ H); exact Hfl).
    destruct segs as [|s [|s2 segs]]; [contradiction| |cbn in L; lia]. destruct Hs as [->|[]].
    eapply skipped_input_reported_partial; eauto.
  - eapply errors_have_skipped_input; eauto.
Qed.
Print Assumptions single_skipped_iff_reported.

(** Three statements; the second is skipped, and there is no error in the whole
    result: the tracking of errors remembers the end of input that the "/*" of the
    first statement was tried up to, and ignores what is noted before it. *)
Definition silent : bytes := B "CYPHER x=/* RETURN 1; X; RETURN 2;".

Theorem skipped_input_reported_refuted : exists ret segs last seg,
  parse_each std_config whole never plain silent = PRet ret segs last /\ In seg segs /\
  has_error_node (s_roots seg) /\ (forall seg', In seg' segs -> s_errors seg' = []).
Proof.
  assert (K : match parse_each std_config whole never plain silent with
    | PRet _ segs _ => existsb skipped segs && forallb (fun s => match s_errors s with [] => true | _ => false end) segs
    | _ => false end = true) by (vm_compute; reflexivity).
  destruct (parse_each std_config whole never plain silent) as [ret segs last| | | | |]; try discriminate K.
  apply andb_prop in K. destruct K as [K1 K2]. apply existsb_exists in K1. destruct K1 as [seg [S1 S2]].
  exists ret, segs, last, seg. split; [reflexivity|]. split; [exact S1|]. split; [apply skipped_iff; exact S2|].
  intros seg' H. rewrite forallb_forall in K2. specialize (K2 _ H). destruct (s_errors seg'); [reflexivity|discriminate].
Qed.
Print Assumptions skipped_input_reported_refuted.

(** The hypotheses are met, with and without errors. *)
Definition errors_and_nodes (inp : bytes) : option (list (nat * nat)) :=
  match parse_each std_config whole never plain inp with
  | PRet _ segs _ => Some (map (fun s => (List.length (s_errors s),
      List.length (filter (fun n => type_eqb (nty n) T_ERROR) (forest (s_roots s))))) segs)
  | _ => None
  end.

Example errors_and_nodes_meet :
  errors_and_nodes (B "foo; RETURN 1; RETURN 2 bar RETURN 3 baz;") = Some [(1, 1); (0, 0); (2, 2)].
Proof. vm_compute. reflexivity. Qed.
Example errors_and_nodes_silent : errors_and_nodes silent = Some [(0, 0); (0, 1); (0, 0)].
Proof. vm_compute. reflexivity. Qed.
