(** * The errors of the segments of a parse *)
From Coq Require Import List Bool Arith ZArith Lia Sorted.
From Verif Require Import Peg PegProofs PegThunks LineSafe QuickModel QuickSpec QuickProofs QuickProps
  CypherSyntax CypherGrammar OperModel ErrModel CypherMatch CypherInv
  AstTypes AstModel CypherBuild CypherExec CypherParse CypherRound CypherSpec ExecRange CypherLoop
  NodeFacts CypherChain MemModel UtilSpec UtilProofs.
Import ListNotations.

Opaque parse_one cfuel.
Strategy expand [crun].

Lemma walk_offset_firstn : forall p s q, q <= List.length s -> offset (walk p (firstn q s)) = offset p + q.
Proof.
  intros p s q H. rewrite walk_offset, firstn_length, Nat.min_l by exact H. lia.
Qed.

Lemma produced_errors : forall cf la r inp o y p a u en seg, entry r ->
  produced cf la r inp o y p a u en seg -> bq_ok inp -> quiet y ->
  errors_described (cf_color cf) (y_off y) inp seg.
Proof.
  intros cf la r inp o y p a u en seg Hr Hp Hbq Hq.
  destruct (produced_nodes _ _ _ _ _ _ _ _ _ _ _ Hr Hp) as [lines [D _]].
  destruct (produced_seg _ _ _ _ _ _ _ _ _ _ _ Hp) as [S1 _].
  destruct (d_errs _ _ _ _ _ _ _ _ D Hbq Hq) as [[_ _ E ES _ _] F].
  assert (Hse : s_errors seg = a_errs a).
  { destruct Hp as [_ _ _ _ ->]. unfold round_segment. apply (proj1 (proj2 (make_segment_fields _ _ _ _ _ _))). }
  unfold errors_described. rewrite Hse. clear Hse Hp D. split.
  - replace (map e_offset (a_errs a)) with (map err_offset (et_errs (c_et u))); [exact ES|].
    clear -F. induction F as [|x x' es es' [F1 _] _ IH]; [reflexivity|]. cbn. rewrite IH. unfold err_offset, e_offset. now rewrite F1.
  - exists 0. split; [rewrite S1; split; [lia|reflexivity]|]. clear S1 ES.
    revert E F. generalize (et_errs (c_et u)) (a_errs a). intros es es' E F.
    induction F as [|x x' es es' [F1 [F2 [c [F3 F4]]]] _ IH]; constructor; inversion E; subst; auto.
    destruct H1 as (q & ls & Q1 & Q2 & Q3 & Q4 & Q5 & _). destruct c as [ctx off'].
    exists q, ls, ctx, off', (la inp p). cbn [skipn]. rewrite Nat.sub_0_r.
    split; [lia|]. split; [exact Q2|]. split; [exact Q3|]. split; [congruence|]. split; [|split; [exact F3|]].
    + rewrite F2, Q5. apply report_message. exact Q2.
    + rewrite Q4 in F4. cbn [x_of e_limit e_inp e_off] in F4. rewrite walk_offset_firstn in F4 by exact Q1.
      replace (offset (y_off y) + q - offset (y_off y)) with q in F4 by lia.
      apply line_context_some. exact F4.
Qed.

Lemma errors_shift : forall col p0 inp p s, p <= List.length inp ->
  errors_described col (walk p0 (firstn p inp)) (skipn p inp) s -> errors_described col p0 inp s.
Proof.
  intros col p0 inp p s Hp [H1 [k [Hk H2]]]. split; [exact H1|]. exists (p + k). split; [now apply true_shift|].
  eapply Forall_impl; [|exact H2]. intros e (q & ls & ctx & off' & lim & A1 & A2 & A3 & A4 & A5 & A6 & A7).
  exists (p + q), ls, ctx, off', lim. rewrite skipn_length in A1. rewrite nth_skipn in A5. rewrite skipn_add in A7.
  replace (p + q - (p + k)) with (q - k) by lia.
  split; [lia|]. split; [exact A2|]. split; [exact A3|]. split; [|auto].
  apply (true_shift p0 inp p q (pe_pos e)); [exact Hp|]. split; [rewrite skipn_length; lia|exact A4].
Qed.

Lemma chain_errors : forall cf la r inp o y segs c, entry r -> chain cf la r inp o y segs c ->
  bq_ok inp -> quiet y -> Forall (errors_described (cf_color cf) (y_off y) inp) segs.
Proof.
  intros cf la r inp o y segs c Hr H.
  induction H as [inp o y|o y|inp o y p a u en seg Hp He|inp o y p a u en seg segs c Hp He Hc IH]; intros Hbq Hq.
  - constructor.
  - constructor.
  - constructor; [eapply produced_errors; eauto|constructor].
  - constructor; [eapply produced_errors; eauto|].
    pose proof (produced_end _ _ _ _ _ _ _ _ _ _ _ Hr Hp Hbq Hq) as Hen.
    specialize (IH (bq_ok_skipn _ _ Hbq) (quiet_next _ _ _)). cbn [y_off next_carry] in IH. rewrite Hen in IH.
    eapply Forall_impl; [|exact IH]. intros s. apply errors_shift. apply Hp.
Qed.
