(** * What the rules of MATCH, CREATE and MERGE take *)
From Coq Require Import List Bool Arith Ascii String ZArith Lia Permutation.
From Verif Require Import Peg PegProofs PegThunks QuickModel QuickSpec QuickProofs CypherSyntax CypherGrammar OperModel ErrModel
  CypherMatch AstTypes AstModel CypherBuild CypherExec CypherParse CypherRun CypherRound CypherSpec
  NodeFacts NodeHeld FlowSound FlowRun SafeProofs TraceSpec TraceProofs LexSpec LexProofs TermSpec Forward ForwardExec ForwardLex
  ForwardStep ForwardAtom ForwardExpr ForwardName ForwardNum ForwardPat ForwardForm ExprSpec ForwardPrint StmtSpec ForwardStmt ForwardClause
  ForwardItem ForwardPattern ForwardHint.
Import ListNotations.
Open Scope peg_scope.
Opaque parse_one cfuel.
Strategy expand [crun].

Section Query.
Variables (col : coloring) (off : position) (inp : bytes).
Notation runc := (run CG (get_of inp) (cprun col off)).
Notation cst := (pst action cuser).
Notation performs := (performs inp).
Notation takes := (takes col off inp).
Notation refuses := (refuses col off inp).
Notation element := (element col off inp).

Lemma space_path : forall ws R, begins ws R -> incl ws w_item -> begins w_path (B " " ++ R).
Proof.
  intros ws R (w & R' & H & ->) HI. exists (" "%char :: w), R'. split; [|reflexivity]. do 2 right. apply in_map, HI, H.
Qed.
Lemma take_pattern : forall ps u R t, prints_pattern ps u -> begins w_hints R ->
  gapfree (u ++ R) /\ takes t (PRule R_pattern) u R (HNode (T T_PATTERN [TList (map part_term ps)])).
Proof.
  intros ps u R t (u' & HL & ->) HB. assert (HG : gapfree R) by (eapply after_gap; [exact HB|exact hints_item]).
  assert (HP : begins w_path (B " " ++ R)) by (eapply space_path; [exact HB|exact hints_item]).
  destruct HL as [x u xs us HX HC].
  assert (HO : begins w_path (us ++ B " " ++ R)).
  { destruct HC; [exact HP|]. exists (B ","), (B " " ++ u0 ++ us ++ B " " ++ R). split; [in_|]. rewrite <- !app_assoc. reflexivity. }
  destruct (part_element col off inp x u _ HX HO) as (E1 & E2 & E3).
  assert (H2 : forall t, takes t (PStar (comma_of 0 R_pattern_part)) us (B " " ++ R) (HGrow 1 [0] (map part_term xs))).
  { eapply (commas_take col off inp); [in_|exact (part_element col off inp)| |exact HC|exact HP|discriminate|].
    - intros R'. exists (B ","), (B " " ++ R'). split; [in_|reflexivity].
    - intros t'. change (B " " ++ R) with (" "%char :: R). replace (" "%char :: R) with (text (many [] R) [Ho 9 " "%char]) by (text_; reflexivity).
      eapply (refuse_of col off inp (many [] R) (effs []) (tight nofact) 60); [run_fail|reflexivity|apply Forall_nil]. }
  rewrite <- !app_assoc. split; [exact E2|].
  cbn [map]. rewrite <- (app_nil_r (map part_term xs)). generalize dependent (map part_term xs). intros ts H2.
  destruct (us ++ B " " ++ R) as [|c5 r5] eqn:E5; [destruct us; discriminate|].
  open_ (u ++ c5 :: r5) c1 r1 E6 K1; [exact E2|]. open_gap R HG. revert H2 E3. generalize (part_term x). intros tm H2 H1.
  eapply (take_of col off inp (many [[]; r1; []; []; []; r5] R') (effs [HNone; HNode tm; HNone; HNone; HNone; HGrow 1 [0] ts])
    (fact_tab [(R_pattern_part, [1], FTake 1 [Ho 5 c5])] [([5], FTake 5 [Kn " "%char; Ho 9 c])]) 200 _ [Ho 1 c1] t);
  [run_trun|reflexivity| |apply node_ok; run_node|nrm_; reflexivity|nrm_; reflexivity].
  hole_ ltac:(first [apply H1|apply H2]).
Qed.

Ltac match_some kw t c1 r1 c2 r2 c5 r5 c R' tp ts e :=
  eapply (take_of col off inp (many [[]; r1; r2; []; []; r5] R') (effs [HNone; HNode tp; HNode (ex_term e); HNone; HNone; HGrow 3 [1] ts])
    (fact_tab [(R_pattern, [1], FTake 1 [Ho 5 c5]); (R_expression, [2], FTake 2 [Ho 9 c])] [([5], FTake 5 (map Kn (B "WHERE ") ++ [Ho 2 c2]))]) 200 _ (map Kn kw ++ [Ho 1 c1]) t);
  [run_trun|reflexivity| |apply node_ok; run_node|nrm_; reflexivity|nrm_; reflexivity].
Ltac match_none kw t c1 r1 c5 r5 c R' tp ts :=
  eapply (take_of col off inp (many [[]; r1; []; []; []; r5] R') (effs [HNone; HNode tp; HNone; HNone; HNone; HGrow 3 [1] ts])
    (fact_tab [(R_pattern, [1], FTake 1 [Ho 5 c5]); (R_WHERE, [9], FFail)] [([5], FTake 5 [Ho 9 c])]) 200 _ (map Kn kw ++ [Ho 1 c1]) t);
  [run_trun|reflexivity| |apply node_ok; run_node|nrm_; reflexivity|nrm_; reflexivity].
Lemma take_match : forall (o : bool) ps hs w u uh uw R t, prints_pattern ps u -> chained prints_mhint hs uh -> maybe (B "WHERE ") (prints 0) w uw -> begins w_after R ->
  takes t (PRule R_clause) ((if o then B "OPTIONAL MATCH " else B "MATCH ") ++ u ++ uh ++ uw) R (HNode (clause_term (Match o ps hs w))).
Proof.
  intros o ps hs w u uh uw R t HP HH HW HB. assert (HG : gapfree R) by (eapply after_gap; [exact HB|i_]).
  destruct (opt_where col off inp w uw R HW HB) as [HO HC].
  pose proof (hints_begin _ _ _ HH HO) as HU. assert (G5 : gapfree (uh ++ uw ++ R)) by (eapply after_gap; [exact HU|exact hints_item]).
  pose proof (fun t => take_mhints col off inp hs uh _ t HH HO) as H5.
  pose proof (fun t => take_pattern ps u _ t HP HU) as H1. assert (G1 : gapfree (u ++ uh ++ uw ++ R)) by apply (H1 t).
  assert (H1' : forall t, takes t (PRule R_pattern) u (uh ++ uw ++ R) (HNode (T T_PATTERN [TList (map part_term ps)]))) by (intros; apply H1).
  clear H1. cbn [clause_term]. unfold pattern_term. generalize dependent (T T_PATTERN [TList (map part_term ps)]). intros tp H1.
  rewrite <- (app_nil_r (map mhint_term hs)). generalize dependent (map mhint_term hs). intros ts H5.
  open_ (u ++ uh ++ uw ++ R) c1 r1 E1 K1; [exact G1|]. open_ (uh ++ uw ++ R) c5 r5 E5 K5; [exact G5|]. destruct w as [e|].
  - destruct HC as (u2 & -> & G2 & _ & H2). open_ (u2 ++ R) c2 r2 E2 K2; [exact G2|]. open_gap R HG.
    destruct o; [match_some (B "OPTIONAL MATCH ") t c1 r1 c2 r2 c5 r5 c R' tp ts e|match_some (B "MATCH ") t c1 r1 c2 r2 c5 r5 c R' tp ts e].
    all: hole_ ltac:(first [apply H1|apply H2|apply H5]).
  - destruct HC as (-> & H2). cbn [app] in *. open_gap R HG.
    destruct o; [match_none (B "OPTIONAL MATCH ") t c1 r1 c5 r5 c R' tp ts|match_none (B "MATCH ") t c1 r1 c5 r5 c R' tp ts].
    all: hole_ ltac:(first [apply H1|apply H2|apply H5]).
Qed.
Lemma pattern_first : forall ps u, prints_pattern ps u -> exists c r, u = c :: r /\ In c (B "(`sa").
Proof.
  intros ps u (u' & HL & ->). destruct HL as [p u ps us HP _]. destruct HP as [x s n ls ux u HX HP].
  destruct HX as [|x v (v' & [x' HV] & ->)]; [|eexists; eexists; split; [reflexivity|in_]].
  destruct s; [|eexists; eexists; split; [reflexivity|in_]|eexists; eexists; split; [reflexivity|in_]].
  destruct HP as [n ls un us' HN HL]. destruct (node_paren _ _ HN) as [un' ->]. eexists; eexists; split; [reflexivity|in_].
Qed.
Ltac create_of kw t r1 c R' tp :=
  let c1 := match goal with |- takes _ _ (_ ++ ?c :: _) _ _ => c end in
  eapply (take_of col off inp (many [[]; r1] R') (effs [HNone; HNode tp])
    (fact_tab [(R_pattern, [1], FTake 1 [Ho 9 c])] []) 200 _ (map Kn kw ++ [Ho 1 c1]) t);
  [run_trun|reflexivity| |apply node_ok; run_node|nrm_; reflexivity|nrm_; reflexivity].
Lemma take_create : forall (q : bool) ps u R t, prints_pattern ps u -> begins w_after R ->
  takes t (PRule R_clause) ((if q then B "CREATE UNIQUE " else B "CREATE ") ++ u) R (HNode (clause_term (Create q ps))).
Proof.
  intros q ps u R t HP HB. assert (HG : gapfree R) by (eapply after_gap; [exact HB|i_]).
  assert (HO : begins w_hints R) by (eapply begins_more; [exact HB|i_]).
  pose proof (fun t => take_pattern ps u _ t HP HO) as H1. assert (G1 : gapfree (u ++ R)) by apply (H1 t).
  assert (H1' : forall t, takes t (PRule R_pattern) u R (HNode (T T_PATTERN [TList (map part_term ps)]))) by (intros; apply H1).
  clear H1. cbn [clause_term]. unfold pattern_term. generalize dependent (T T_PATTERN [TList (map part_term ps)]). intros tp H1.
  destruct (pattern_first ps u HP) as (c1 & r & -> & HI). set (r1 := r ++ R). open_gap R HG.
  destruct HI as [<-|[<-|[<-|[<-|[]]]]].
  all: destruct q; [create_of (B "CREATE UNIQUE ") t r1 c R' tp|create_of (B "CREATE ") t r1 c R' tp].
  all: hole_ ltac:(first [apply H1]).
Qed.
Lemma take_merge : forall p acts u us R t, prints_part p u -> chained prints_act acts us -> begins w_after R ->
  takes t (PRule R_clause) (B "MERGE " ++ u ++ B " " ++ us) R (HNode (clause_term (Merge p acts))).
Proof.
  intros p acts u us R t HP HA HB. assert (HG : gapfree R) by (eapply after_gap; [exact HB|i_]).
  assert (HB' : begins w_act R) by (eapply begins_more; [exact HB|i_]).
  assert (HO : begins w_act (us ++ R)).
  { destruct HA as [|x v xs us HX _]; [exact HB'|]. destruct HX as [b is v _]. exists (B "ON "), ((if b then B "CREATE SET " else B "MATCH SET ") ++ v ++ us ++ R).
    split; [in_|]. destruct b; cbn; rewrite <- !app_assoc; reflexivity. }
  assert (H2 : forall t, takes t (PStar (chain_of 1 R_merge_action)) us R (HGrow 2 [1] (map act_term acts))).
  { eapply (chained_take col off inp); [in_|exact (act_element col off inp)| |exact HA|exact HB'|exact (gapfree_nonempty _ HG)|].
    - intros x v R1 HX. destruct HX as [b is v _]. exists (B "ON "), ((if b then B "CREATE SET " else B "MATCH SET ") ++ v ++ R1).
      split; [in_|]. destruct b; cbn; rewrite <- ?app_assoc; reflexivity.
    - eapply refuse_at; [|exact HB]. stop_. }
  assert (HP' : begins w_path (B " " ++ us ++ R)) by (eapply space_path; [exact HO|exact act_item]).
  destruct (part_element col off inp p u _ HP HP') as (E1 & E2 & H1).
  assert (G2 : gapfree (us ++ R)) by (eapply after_gap; [exact HO|exact act_item]).
  cbn [clause_term]. rewrite <- (app_nil_r (map act_term acts)). generalize dependent (map act_term acts). intros ts H2.
  generalize dependent (part_term p). intros tp H1.
  open_ (u ++ B " " ++ us ++ R) c1 r1 E3 K1; [exact E2|]. open_ (us ++ R) c5 r5 E5 K5; [exact G2|]. open_gap R HG.
  eapply (take_of col off inp (many [[]; r1; []; []; []; r5] R') (effs [HNone; HNode tp; HNone; HNone; HNone; HGrow 2 [1] ts])
    (fact_tab [(R_pattern_part, [1], FTake 1 [Kn " "%char; Ho 5 c5])] [([5], FTake 5 [Ho 9 c])]) 200 _ (map Kn (B "MERGE ") ++ [Ho 1 c1]) t);
  [run_trun|reflexivity| |apply node_ok; run_node|nrm_; reflexivity|nrm_; reflexivity].
  hole_ ltac:(first [apply H1|apply H2]).
Qed.
End Query.
