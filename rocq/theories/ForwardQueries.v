(** * What the rules of a sequence of clauses take *)
From Coq Require Import List Bool Arith Ascii String ZArith Lia Permutation.
From Verif Require Import Peg PegProofs PegThunks QuickModel QuickSpec QuickProofs CypherSyntax CypherGrammar OperModel ErrModel
  CypherMatch AstTypes AstModel CypherBuild CypherExec CypherParse CypherRun CypherRound CypherSpec
  NodeFacts NodeHeld FlowSound FlowRun SafeProofs TraceSpec TraceProofs LexSpec LexProofs TermSpec Forward ForwardExec ForwardLex
  ForwardStep ForwardAtom ForwardExpr ForwardName ForwardNum ForwardPat ForwardForm ExprSpec ForwardPrint StmtSpec ForwardStmt ForwardClause
  ForwardItem ForwardPattern ForwardHint ForwardQuery ForwardCall.
Import ListNotations.
Open Scope peg_scope.
Opaque parse_one cfuel.
Strategy expand [crun].

Scheme prints_clause_mut := Induction for prints_clause Sort Prop
  with prints_clauses_mut := Induction for prints_clauses Sort Prop.
Combined Scheme clause_mut from prints_clause_mut, prints_clauses_mut.

Lemma begins_word : forall w u, In w clause_words -> begins clause_words (w ++ u).
Proof. intros w u H. exists w, u. auto. Qed.
Ltac word_ := rewrite <- ?app_assoc; first
  [apply (begins_word (B "MATCH ")); in_|apply (begins_word (B "RETURN ")); in_|apply (begins_word (B "WITH ")); in_
  |apply (begins_word (B "UNWIND ")); in_|apply (begins_word (B "MERGE ")); in_|apply (begins_word (B "SET ")); in_
  |apply (begins_word (B "DELETE ")); in_|apply (begins_word (B "REMOVE ")); in_|apply (begins_word (B "CREATE ")); in_
  |apply (begins_word (B "CALL ")); in_|apply (begins_word (B "START ")); in_|apply (begins_word (B "UNION ")); in_
  |eexists (B "OPTIONAL "), _; split; [in_|reflexivity]|eexists (B "DETACH "), _; split; [in_|reflexivity]
  |eexists (B "CREATE "), _; split; [in_|reflexivity]|eexists (B "LOAD "), _; split; [in_|reflexivity]
  |eexists (B "FOREACH "), _; split; [in_|reflexivity]|eexists (B "UNION "), _; split; [in_|reflexivity]].
Lemma clause_begins : forall c u, prints_clause c u -> begins clause_words u.
Proof. intros c u H. destruct H; repeat match goal with b : bool |- _ => destruct b end; word_. Qed.
Lemma begins_app : forall ws u R, begins ws u -> begins ws (u ++ R).
Proof. intros ws u R (w & r & H & ->). exists w, (r ++ R). rewrite app_assoc. auto. Qed.
Lemma words_after : forall R, begins clause_words R -> begins w_after R.
Proof. intros R (w & r & H & ->). exists w, r. split; [apply in_or_app; left; exact H|reflexivity]. Qed.

Section Queries.
Variables (col : coloring) (off : position) (inp : bytes).
Notation runc := (run CG (get_of inp) (cprun col off)).
Notation cst := (pst action cuser).
Notation performs := (performs inp).
Notation takes := (takes col off inp).
Notation refuses := (refuses col off inp).
Notation element := (element col off inp).

Definition reads_clause (c : clause) (u : bytes) : Prop :=
  begins clause_words u /\ forall R t, begins w_after R -> takes t (PRule R_clause) u R (HNode (clause_term c)).
Lemma clause_element : element R_clause reads_clause clause_term (begins w_after).
Proof.
  intros c u R [HW HR] HB. split; [destruct HW as (w & r & HI & ->); destruct w; [cbn in HI; intuition discriminate|discriminate]|].
  split; [|intros t; apply HR, HB]. eapply after_gap; [apply words_after, begins_app, HW|i_].
Qed.
Lemma foreach_clauses : forall cs us R t, cs <> [] -> chained reads_clause cs us ->
  takes t (PPlus (chain_of 2 R_clause)) us (B ") " ++ R) (HGrow 3 [2] (map clause_term cs)).
Proof.
  intros cs us R t HN H. revert t. eapply (chained_plus col off inp); [in_|exact HN|exact clause_element| |exact H| |discriminate|].
  - intros c u R' [HW _]. apply words_after, begins_app, HW.
  - exists (B ")"), (B " " ++ R). split; [in_|reflexivity].
  - apply (refuse_at col off inp R_clause [B ") "]); [stop_|apply begins_with; left; reflexivity].
Qed.
Lemma clauses_all : (forall c u, prints_clause c u -> reads_clause c u) /\
  (forall cs us, prints_clauses cs us -> cs <> [] /\ begins clause_words us /\ chained reads_clause cs us).
Proof.
  apply clause_mut.
  all: try (intros; split; [eapply clause_begins; econstructor; eassumption|intros R t0 HB]).
  all: try (intros; split; [eapply clause_begins; constructor; eassumption|intros R t0 HB]).
  - apply take_match; assumption.
  - apply take_start; assumption.
  - apply take_return; assumption.
  - apply take_with; assumption.
  - apply take_unwind; assumption.
  - apply take_merge; assumption.
  - apply take_create; assumption.
  - apply take_set; assumption.
  - apply take_delete; assumption.
  - apply take_remove; assumption.
  - match goal with H : _ <> [] /\ _ /\ _ |- _ => destruct H as (K1 & K2 & K3) end.
    apply take_foreach; try assumption.
    + destruct K2 as (w & r & HI & ->); destruct w; [cbn in HI; intuition discriminate|discriminate].
    + eapply after_gap; [apply words_after, K2|i_].
    + intros t'. apply foreach_clauses; assumption.
  - apply take_call; assumption.
  - apply take_call_dash; assumption.
  - apply take_load; assumption.
  - apply take_union; assumption.
  - intros c u H IH. split; [discriminate|]. split; [apply IH|]. rewrite <- (app_nil_r u). apply ch_some; [exact IH|apply ch_none].
  - intros c u cs us H IH H2 (I1 & I2 & I3). split; [discriminate|]. split; [apply begins_app, IH|]. apply ch_some; assumption.
Qed.

Ltac none_of R' w t :=
  eapply (take_of col off inp (many [] R') (effs []) (tight nofact) 60 _ (Kn ";"%char :: w) t);
  [run_trun|reflexivity|apply Forall_nil|apply grow_ok; [reflexivity|run_grow]|nrm_; reflexivity|nrm_; reflexivity].
Ltac more_of R' w r1 r2 c1 c2 tm ts t :=
  eapply (take_of col off inp (many [[]; r1; r2] R') (effs [HNone; HNode tm; HGrow 1 [] ts])
    (fact_tab [(R_SEMICOLON, [1], FFail); (R_EOF, [1], FFail); (R_clause, [1], FTake 1 [Ho 2 c2]); (R__clauses, [2], FTake 2 w)] []) 60 _ [Ho 1 c1] t);
  [run_trun|reflexivity| |apply grow_ok; [reflexivity|run_grow]|nrm_; reflexivity|nrm_; reflexivity].
Lemma rest_clauses : forall R cs us, chained reads_clause cs us -> forall t,
  takes t (PRule R__clauses) (us ++ B ";") R (HGrow 1 [] (map clause_term cs)).
Proof.
  intros R cs us H. induction H as [|c u cs us [HW HR] H IH]; intros t.
  - cbn [app map]. destruct R as [|c9 R'].
    + none_of (@nil ascii) (@nil tok) t.
    + none_of R' [Ho 9 c9] t.
  - cbn [map]. rewrite <- app_assoc.
    assert (HB : begins w_after (us ++ B ";" ++ R)).
    { rewrite app_assoc. apply begins_app. destruct H as [|c' u' cs us [HW' _] H]; [apply (begins_with w_after (B ";") []); in_|].
      rewrite <- app_assoc. apply words_after, begins_app, HW'. }
    pose proof (fun t => HR _ t HB) as H1. assert (HB' : begins clause_words (u ++ us ++ B ";" ++ R)) by (apply begins_app, HW).
    assert (N1 : forall t, refuses t (PRule R_SEMICOLON) (u ++ us ++ B ";" ++ R)) by (eapply refuse_at; [|exact HB']; stop_).
    assert (N2 : forall t, refuses t (PRule R_EOF) (u ++ us ++ B ";" ++ R)) by (eapply refuse_at; [|exact HB']; stop_).
    rewrite <- (app_nil_r (map clause_term cs)). generalize dependent (map clause_term cs). intros ts IH.
    generalize dependent (clause_term c). intros tm _ H1.
    destruct R as [|c9 R'].
    + rewrite app_nil_r in *. open_ (us ++ B ";") c2 r2 E2 K2; [eapply after_gap; [exact HB|i_]|].
      open_ (u ++ us ++ B ";") c1 r1 E1 K1; [eapply after_gap; [apply words_after, HB'|i_]|].
      more_of (@nil ascii) (@nil tok) r1 r2 c1 c2 tm ts t. hole_ ltac:(first [apply H1|apply IH|apply N1|apply N2]).
    + open_ (us ++ B ";" ++ c9 :: R') c2 r2 E2 K2; [eapply after_gap; [exact HB|i_]|].
      open_ (u ++ us ++ B ";" ++ c9 :: R') c1 r1 E1 K1; [eapply after_gap; [apply words_after, HB'|i_]|].
      cbn [B list_ascii_of_string app] in E1, E2.
      more_of R' [Ho 9 c9] r1 r2 c1 c2 tm ts t. 
      hole_ ltac:(first [apply H1|apply IH|apply N1|apply N2]).
Qed.
Ltac first_of R' w r1 r2 c1 c2 tm ts t :=
  eapply (take_of col off inp (many [[]; r1; r2] R') (effs [HNone; HNode tm; HGrow 1 [] ts])
    (fact_tab [(R_clause, [1], FTake 1 [Ho 2 c2]); (R__clauses, [2], FTake 2 w)] []) 60 _ [Ho 1 c1] t);
  [run_trun|reflexivity| |apply grow_ok; [reflexivity|run_grow]|nrm_; reflexivity|nrm_; reflexivity].
Lemma take_clauses : forall cs us R t, prints_clauses cs us ->
  takes t (PRule R_clauses) (us ++ B ";") R (HGrow 1 [] (map clause_term cs)).
Proof.
  intros cs us R t H. destruct (proj2 clauses_all cs us H) as (HN & _ & HC). destruct HC as [|c u cs us [HW HR] HC]; [contradiction|].
  pose proof (rest_clauses R cs us HC) as H2. cbn [map]. rewrite <- app_assoc.
  assert (HB : begins w_after (us ++ B ";" ++ R)).
  { rewrite app_assoc. apply begins_app. destruct HC as [|c' u' cs us [HW' _] _]; [apply (begins_with w_after (B ";") []); in_|].
    rewrite <- app_assoc. apply words_after, begins_app, HW'. }
  pose proof (fun t => HR _ t HB) as H1.
  rewrite <- (app_nil_r (map clause_term cs)). generalize dependent (map clause_term cs). intros ts H2.
  generalize dependent (clause_term c). intros tm _ H1.
  destruct R as [|c9 R'].
  - rewrite app_nil_r in *. open_ (us ++ B ";") c2 r2 E2 K2; [eapply after_gap; [exact HB|i_]|].
    open_ (u ++ us ++ B ";") c1 r1 E1 K1; [eapply after_gap; [apply words_after, begins_app, HW|i_]|].
    first_of (@nil ascii) (@nil tok) r1 r2 c1 c2 tm ts t. hole_ ltac:(first [apply H1|apply H2]).
  - open_ (us ++ B ";" ++ c9 :: R') c2 r2 E2 K2; [eapply after_gap; [exact HB|i_]|].
    open_ (u ++ us ++ B ";" ++ c9 :: R') c1 r1 E1 K1; [eapply after_gap; [apply words_after, begins_app, HW|i_]|].
    cbn [B list_ascii_of_string app] in E1, E2.
    first_of R' [Ho 9 c9] r1 r2 c1 c2 tm ts t. hole_ ltac:(first [apply H1|apply H2]).
Qed.
End Queries.
