(** * C23: the table of operators *)
From Coq Require Import List Arith Lia.
Import ListNotations.
From Verif Require Import Peg CypherSyntax OperModel OperSpec.

(** Each operator stands on one level of the documented order, once, and the numbers of the
    table order the operators exactly as the levels do. *)
Lemma level_find : forall o, exists i, on_level o i /\ oprec o = S i /\ i < 13.
Proof.
  intro o. exists (oprec o - 1).
  destruct o; cbn; (split; [ eexists; split; [ reflexivity | cbn; tauto ] | split; [ reflexivity | lia ] ]).
Qed.

Lemma on_level_prec : forall o i, on_level o i -> oprec o = S i.
Proof.
  intros o i (l & E & I).
  do 13 (destruct i as [ | i ];
    [ cbn in E; injection E as <-; cbn in I;
      repeat (destruct I as [ <- | I ]; [ reflexivity | ]); destruct I | ]).
  cbn in E. destruct i; discriminate E.
Qed.

Theorem operator_levels : forall o, exists! i, on_level o i.
Proof.
  intro o. destruct (level_find o) as (i & L & E & _). exists i. split; [ exact L | ].
  intros j Hj. apply on_level_prec in Hj. congruence.
Qed.

Theorem operator_order : forall o o', oprec o < oprec o' <-> looser o o'.
Proof.
  intros o o'. split.
  - intro H. destruct (level_find o) as (i & L & E & _). destruct (level_find o') as (j & L' & E' & _).
    exists i, j. repeat split; auto. lia.
  - intros (i & j & L & L' & H). apply on_level_prec in L. apply on_level_prec in L'. lia.
Qed.

Theorem operator_same_level : forall o o',
  oprec o = oprec o' <-> exists i, on_level o i /\ on_level o' i.
Proof.
  intros o o'. split.
  - intro H. destruct (level_find o) as (i & L & E & _). destruct (level_find o') as (j & L' & E' & _).
    exists i. split; [ exact L | ]. replace i with j by lia. exact L'.
  - intros (i & L & L'). apply on_level_prec in L. apply on_level_prec in L'. congruence.
Qed.

Theorem operator_associativity : forall o,
  (oassoc o = UNARY <-> In o unary_operators) /\
  (oassoc o = RIGHT_ASSOC <-> o = OP_POW) /\
  (oassoc o = LEFT_ASSOC <-> ~ In o unary_operators /\ o <> OP_POW).
Proof.
  intro o; destruct o; cbn; (split; [ | split ]); split; intro H;
    try reflexivity; try discriminate H; try tauto;
    try (repeat (destruct H as [ H | H ]; try discriminate H); contradiction);
    try (split; [ intro I; repeat (destruct I as [ I | I ]; try discriminate I); contradiction | discriminate ]);
    try (destruct H as [ H H' ]; exfalso; (apply H' + apply H); tauto).
Qed.

(** Two operators on one level that both take two operands associate the same way, so that a
    sequence of them has one reading. *)
Theorem operator_level_associativity : forall o o' i,
  on_level o i -> on_level o' i ->
  ~ In o unary_operators -> ~ In o' unary_operators -> oassoc o = oassoc o'.
Proof.
  intros o o' i L L' U U'. apply on_level_prec in L. apply on_level_prec in L'.
  assert (E : oprec o = oprec o') by congruence. clear L L'.
  destruct o; cbn in U; try (exfalso; apply U; tauto); clear U;
    destruct o'; try discriminate E; try reflexivity; cbn in U'; exfalso; apply U'; tauto.
Qed.

(** The text of an operator determines it, but for the two signs. *)
Theorem operator_text : forall o o',
  ostr o = ostr o' -> oassoc o = UNARY <-> oassoc o' = UNARY -> o = o'.
Proof.
  intros o o' E H.
  destruct o; destruct o'; try reflexivity; try discriminate E; exfalso; cbn in H;
    (discriminate (proj1 H eq_refl) || discriminate (proj2 H eq_refl)).
Qed.

Example levels_used : looser OP_PLUS OP_MULT /\ on_level OP_POW 8 /\ looser OP_UNARY_MINUS OP_IS_NULL.
Proof.
  split; [ apply operator_order; cbn; lia | split; [ | apply operator_order; cbn; lia ] ].
  exists [OP_POW]. split; [ reflexivity | cbn; tauto ].
Qed.

Print Assumptions operator_levels.
Print Assumptions operator_order.
Print Assumptions operator_same_level.
Print Assumptions operator_associativity.
Print Assumptions operator_level_associativity.
Print Assumptions operator_text.
