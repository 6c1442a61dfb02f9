(** * From predictions to whole parses *)
From Coq Require Import List Bool Arith Ascii String ZArith Lia Permutation.
From Verif Require Import Peg PegProofs PegThunks QuickModel QuickSpec QuickProofs CypherSyntax CypherGrammar OperModel ErrModel
  CypherMatch AstTypes AstModel CypherBuild CypherExec CypherParse CypherRun CypherRound CypherLoop CypherInv CypherChain CypherSpec
  NodeFacts NodeHeld FlowSound FlowRun SafeProofs SkipProofs TraceSpec TraceProofs LexSpec LexProofs TermSpec Forward ForwardExec ForwardLex
  ForwardStep ForwardAtom.
Import ListNotations.
Open Scope peg_scope.
Opaque parse_one cfuel.
Strategy expand [crun].

(** ** A match that uses none of the rules [callish] *)
Section Plain.
Variables (col : coloring) (off : position) (inp : bytes).
Notation runc := (run CG (get_of inp) (cprun col off)).
Notation vis := (visits col off inp).
Notation cst := (pst action cuser).

Lemma plain_split : forall l1 l2, plain (l1 ++ l2) -> plain l1 /\ plain l2.
Proof. intros l1 l2 H. apply Forall_app in H. exact H. Qed.

(** [e'] is [e] with white space in place of white space and comments *)
Inductive wk : cexp -> cexp -> Prop :=
| wk_dot : wk PDot PDot
| wk_char : forall c, wk (PChar c) (PChar c)
| wk_str : forall x, wk (PStr x) (PStr x)
| wk_class : forall cs, wk (PClass cs) (PClass cs)
| wk_rule : forall r, wk (PRule r) (PRule r)
| wk_open : forall r e, wk (CG r) e -> wk (PRule r) e
| wk_seq : forall a b a' b', wk a a' -> wk b b' -> wk (PSeq a b) (PSeq a' b')
| wk_alt : forall a b a' b', wk a a' -> wk b b' -> wk (PAlt a b) (PAlt a' b')
| wk_left : forall a a', wk a a' -> wk (PAlt a (PRule R_comment)) a'
| wk_star : forall a a', wk a a' -> wk (PStar a) (PStar a')
| wk_plus : forall a a', wk a a' -> wk (PPlus a) (PPlus a')
| wk_query : forall a a', wk a a' -> wk (PQuery a) (PQuery a')
| wk_and : forall a, wk (PAnd a) (PAnd a)
| wk_not : forall a, wk (PNot a) (PNot a)
| wk_act : forall t, wk (PAct t) (PAct t)
| wk_pred : forall q, wk (PPred q) (PPred q)
| wk_err : forall a a' q, wk a a' -> wk (PErr a q) (PErr a' q).

Lemma wk_refl : forall e, wk e e.
Proof. induction e; constructor; auto. Qed.

Section Any.
Variable G : rule -> cexp.
Hypothesis HG : forall r, callish r = false -> wk (CG r) (G r).
Notation leaves := (leaves G).

Lemma plain_weak : forall n e s s', runc n e s = ROk s' -> plain (vis n e s) -> forall e', wk e e' -> leaves e' s s'.
Proof.
  induction n as [|n IH]; intros e s s' Hx HP e' HW; [discriminate|]. destruct HW; cbn [Peg.run] in Hx; cbn [visits] in HP.
  - destruct (get_of inp (pos s)); [|discriminate]. injection Hx as <-. apply leaves_nil; [constructor|reflexivity].
  - destruct (get_of inp (pos s)); [destruct (beq c a)|]; try discriminate. injection Hx as <-. apply leaves_nil; [constructor|reflexivity].
  - destruct (match_str _ x (pos s) (pos s)); [|discriminate]. injection Hx as <-. apply leaves_nil; [constructor|reflexivity].
  - destruct (get_of inp (pos s)); [destruct (in_class cs a)|]; try discriminate. injection Hx as <-. apply leaves_nil; [constructor|reflexivity].
  - destruct (runc n (CG r) s) as [s1|s1| |] eqn:H1; try discriminate. injection Hx as <-.
    inversion HP as [|? ? P1 P2]; subst. cbn in P1.
    destruct (IH _ _ _ H1 P2 _ (HG r P1)) as [l [L1 L2]]. exists l. split; [constructor; auto|auto].
  - destruct (runc n (CG r) s) as [s1|s1| |] eqn:H1; try discriminate. injection Hx as <-.
    inversion HP as [|? ? P1 P2]; subst. exact (IH _ _ _ H1 P2 _ HW).
  - destruct (runc n a s) as [s1|s1| |] eqn:H1; try discriminate. apply plain_split in HP. destruct HP as [P1 P2].
    eapply leaves_seq; [exact (IH _ _ _ H1 P1 _ HW1)|exact (IH _ _ _ Hx P2 _ HW2)|intros; constructor; auto].
  - destruct (runc n a s) as [s1|s1| |] eqn:H1; try discriminate.
    + injection Hx as <-. destruct (IH _ _ _ H1 HP _ HW1) as [l [L1 L2]]. exists l. split; [apply em_alt1; auto|auto].
    + destruct (IH _ _ _ Hx HP _ HW2) as [l [L1 L2]]. exists l. split; [apply em_alt2; auto|auto].
  - destruct (runc n a s) as [s1|s1| |] eqn:H1; try discriminate.
    + injection Hx as <-. exact (IH _ _ _ H1 HP _ HW).
    + exfalso. destruct n as [|n]; [discriminate|]. cbn [Peg.run] in Hx. cbn [visits] in HP.
      destruct (runc n (CG R_comment) (restore s s1)) as [s2|s2| |]; try discriminate.
      inversion HP as [|? ? P1 P2]; subst. discriminate P1.
  - destruct (runc n a s) as [s1|s1| |] eqn:H1; try discriminate.
    + apply plain_split in HP. destruct HP as [P1 P2].
      eapply leaves_seq; [exact (IH _ _ _ H1 P1 _ HW)|exact (IH _ _ _ Hx P2 _ (wk_star _ _ HW))|intros; constructor; auto].
    + injection Hx as <-. apply leaves_nil; [constructor|reflexivity].
  - destruct (runc n a s) as [s1|s1| |] eqn:H1; try discriminate. apply plain_split in HP. destruct HP as [P1 P2].
    eapply leaves_seq; [exact (IH _ _ _ H1 P1 _ HW)|exact (IH _ _ _ Hx P2 _ (wk_star _ _ HW))|intros; constructor; auto].
  - destruct (runc n a s) as [s1|s1| |] eqn:H1; try discriminate.
    + injection Hx as <-. destruct (IH _ _ _ H1 HP _ HW) as [l [L1 L2]]. exists l. split; [apply em_query; auto|auto].
    + injection Hx as <-. apply leaves_nil; [constructor|reflexivity].
  - destruct (runc n a s) as [s1|s1| |] eqn:H1; try discriminate. injection Hx as <-. apply leaves_nil; [constructor|reflexivity].
  - destruct (runc n a s) as [s1|s1| |] eqn:H1; try discriminate. injection Hx as <-. apply leaves_nil; [constructor|reflexivity].
  - injection Hx as <-. exists [(t, pos s)]. split; [constructor|reflexivity].
  - unfold run_pred in Hx. destruct (cprun col off q (pos s) (get_of inp (pos s)) (user s)) as [[[b u] l]|] eqn:Hc; [|discriminate].
    destruct b; [|discriminate]. injection Hx as <-.
    destruct q; cbn [cprun] in Hc;
      try (destruct (c_op (user s)); [|discriminate]);
      try (destruct (do_err _ _ _ _ _); [|discriminate]);
      injection Hc; intros; subst;
      try (apply leaves_nil; [apply em_pred; congruence|reflexivity]).
    exists [(a, pos s)]. split; [constructor|reflexivity].
  - destruct (runc n a s) as [s1|s1| |] eqn:H1; try discriminate.
    + injection Hx as <-. destruct (IH _ _ _ H1 HP _ HW) as [l [L1 L2]]. exists l. split; [constructor; auto|auto].
    + destruct (run_pred (get_of inp) (cprun col off) q s1); discriminate.
Qed.
Lemma plain_leaves : forall n e s s', runc n e s = ROk s' -> plain (vis n e s) -> leaves e s s'.
Proof. intros. eapply plain_weak; eauto using wk_refl. Qed.
End Any.

(** nothing is skipped *)
Definition GS (r : rule) : cexp := if callish r then PDot else CG r.
Fixpoint skipless (e : cexp) : bool :=
  match e with
  | PSeq e1 e2 | PAlt e1 e2 => skipless e1 && skipless e2
  | PStar e | PPlus e | PQuery e | PErr e _ => skipless e
  | PAct t | PPred (QDo t) => negb (is_skip t)
  | _ => true
  end.
Lemma GS_skipless : forall r, skipless (GS r) = true.
Proof.
  assert (K : forallb (fun r => skipless (GS r)) all_rules = true) by (vm_compute; reflexivity).
  intros r. rewrite forallb_forall in K. exact (K r (all_rules_complete r)).
Qed.
Lemma emits_skipless : forall e l, emits GS e l -> skipless e = true -> skips l = false.
Proof.
  unfold skips. intros e l H. induction H; cbn [skipless]; intros HC; try reflexivity; auto using GS_skipless;
    try (apply andb_prop in HC; destruct HC as [C1 C2]); try (rewrite existsb_app, ?IHemits1, ?IHemits2; auto); auto.
  - cbn. rewrite orb_false_r. apply negb_true_iff. exact HC.
  - cbn. rewrite orb_false_r. apply negb_true_iff. exact HC.
Qed.
Lemma plain_skips : forall n e s s', runc n e s = ROk s' -> plain (vis n e s) -> skipless e = true -> skips (thunks s) = false ->
  skips (thunks s') = false.
Proof.
  intros n e s s' Hx HP HE HS. destruct (plain_leaves GS ltac:(intros r H; unfold GS; rewrite H; apply wk_refl) n e s s' Hx HP) as (l & L1 & ->).
  apply emits_skipless in L1; [|exact HE]. unfold skips in *. rewrite existsb_app, HS, orb_false_r.
  apply existsb_forall. apply Forall_rev. apply existsb_forall in L1. exact L1.
Qed.
End Plain.

Lemma GD_plain : forall r, callish r = false -> wk (CG r) (GD r).
Proof.
  assert (K : forall l c, wk (PPred (QDo TBlockStart) ⋅ PAct (TDo [SStrReset]) ⋅ PErr (PStar dots ⋅ PRule R_symbolic_name) (QErr l) ⋅
    PPred (QDo TBlockEnd) ⋅ PAct (TDo [SLet LRet (RMk c [])]) ⋅ PRule R_sp) (dotted l c)).
  { intros l c. unfold dotted. repeat first [apply wk_rule | apply wk_act | apply wk_pred | apply wk_seq | apply wk_err | apply wk_star];
      apply wk_open; apply wk_star; apply wk_left; apply wk_rule. }
  intros r H. assert (HD : r = R_function_name \/ r = R_proc_name \/ GD r = CG r) by (destruct r; auto).
  destruct HD as [-> |[-> |HD]]; [apply K|apply K|rewrite HD; apply wk_refl].
Qed.

(** ** Numbering leaves what a tree says as it is *)
Lemma term_ordinals_all : forall ts n, Forall (fun t => forall n, nid (fst (set_ordinals t n)) = nid t /\ term_of (fst (set_ordinals t n)) = term_of t) ts ->
  map (fun k => (nid k, term_of k)) (fst (set_ordinals_all ts n)) = map (fun k => (nid k, term_of k)) ts.
Proof.
  induction ts as [|t ts IH]; intros n H; [reflexivity|]. inversion H as [|? ? H1 H2]; subst. cbn.
  destruct (set_ordinals t n) as [t' m] eqn:E. specialize (IH m H2). destruct (set_ordinals_all ts m) as [ts' m'] eqn:E2. cbn in *.
  specialize (H1 n). rewrite E in H1. cbn in H1. destruct H1 as [-> ->]. rewrite IH. reflexivity.
Qed.
Lemma ordinals_go : forall i ty r f ks o n, set_ordinals (Node i ty r f ks o) n =
  (Node i ty r f (fst (set_ordinals_all ks (S n))) n, snd (set_ordinals_all ks (S n))).
Proof.
  intros. cbn [set_ordinals].
  match goal with |- (let (_, _) := ?g _ _ in _) = _ => assert (K : forall ks m, g ks m = set_ordinals_all ks m) end.
  { clear. induction ks as [|k ks IH]; intros m; [reflexivity|]. cbn. destruct (set_ordinals k m) as [k' m1]. rewrite IH. reflexivity. }
  rewrite K. destruct (set_ordinals_all ks (S n)). reflexivity.
Qed.
Lemma term_ordinals : forall t n, nid (fst (set_ordinals t n)) = nid t /\ term_of (fst (set_ordinals t n)) = term_of t.
Proof.
  fix IH 1. intros [i ty r f ks o] n. rewrite ordinals_go. cbn [fst nid term_of]. split; [reflexivity|].
  rewrite term_ordinals_all; [reflexivity|]. clear - IH. induction ks as [|k ks IHk]; constructor; [intros n; exact (IH k n)|exact IHk].
Qed.

(** ** One round *)
Definition said_by (tm : term) (a : astate) : Prop :=
  exists n, a_result a = Some n /\ term_of n = tm /\ exists b, a_blocks a = [b] /\ b_kids b = [n].

Lemma round_gen : forall cf la fl inp y rest_of eff fact n w w2 t' tr obs (Q : xst -> Prop),
  bq_ok inp -> quiet y -> inp <> [] -> (forall p, List.length inp <= la inp p) ->
  trun fact n (PRule (start_rule fl)) w (mkt None []) = TOk w2 t' tr true obs ->
  text rest_of w = inp ->
  Forall (ob (cf_color cf) (y_off y) inp rest_of (fun i => performs inp (eff i))) obs ->
  (forall g, exists x, texec eff (slice_real inp rest_of) trim chain_real tr (x_node g []) = Some x /\ Q x) ->
  exists lines a u, parse_one cf la (start_rule fl) inp y = RdOk (List.length inp - List.length (text rest_of w2)) lines a u /\
    a_errs a = [] /\ exists rho x, rel inp rest_of (mks [] (top_block (cf_position cf)) [] None false) rho x a /\ Q x.
Proof.
  intros cf la fl inp y rest_of eff fact n w w2 t' tr obs Q Hbq Hq Hne Hla HT HW HO HX.
  assert (K : forall m s, run CG (get_of inp) (cprun (cf_color cf) (y_off y)) m (PRule (start_rule fl)) (match_start y) = ROk s ->
    pos s = List.length inp - List.length (text rest_of w2) /\ plain (visits (cf_color cf) (y_off y) inp m (PRule (start_rule fl)) (match_start y)) /\
    traced inp rest_of (fun i => performs inp (eff i)) tr (rev (thunks s))).
  { intros m s Hx.
    pose proof (trun_sound (cf_color cf) (y_off y) inp rest_of (fun i => performs inp (eff i)) fact m n
      (PRule (start_rule fl)) w (mkt None []) (match_start y)) as G.
    rewrite HT in G. unfold good in G. cbn [obs_of] in G.
    assert (A : at_toks inp rest_of (pos (match_start y)) w) by (split; [cbn; congruence|cbn; lia]).
    assert (S0 : same (user (match_start y)) (mkt None [])) by (split; [reflexivity|exact I]).
    specialize (G A S0 HO). rewrite Hx in G. destruct G as (G1 & _ & (l & G3 & G4) & G5).
    split; [exact (at_where _ _ _ _ G1)|split; [exact (G5 eq_refl)|]].
    rewrite G3. cbn [match_start thunks]. rewrite app_nil_r, rev_involutive. exact G4. }
  pose proof (round_strict_of cf la (start_rule fl) inp y GD tableD (result_types fl) (start_entry fl) Hbq Hq Hne Hla) as R.
  assert (HL : forall s, crun (cf_color cf) (y_off y) (cfuel inp) inp (PRule (start_rule fl)) (match_start y) = ROk s ->
    FlowRun.leaves GD (PRule (start_rule fl)) (match_start y) s).
  { unfold crun. intros s Hx. destruct (K _ _ Hx) as (_ & K2 & _).
    exact (plain_leaves _ _ _ GD GD_plain _ _ _ _ Hx K2). }
  specialize (R HL tableD_checked (tableD_ends fl)).
  destruct (parse_one cf la (start_rule fl) inp y) as [p lines a u| | | | |] eqn:HP; try contradiction.
  rewrite parse_one_eq in HP. apply finish_one_ok in HP. revert HP. unfold crun. generalize (cfuel inp). intros k HP.
  destruct HP as (s & Hx & -> & -> & -> & He & (b & B1 & B2 & B3) & F1 & F2 & F3).
  destruct (K _ _ Hx) as (K1 & K2 & K3). rewrite K1. exists (c_lines (user s)), a, (user s). split; [reflexivity|].
  set (g := ghosts (y_fresh y)). destruct (HX (map term_of g)) as (x & X1 & X2).
  set (uu := mks [] (top_block (cf_position cf)) [] None false).
  assert (RR : rel inp rest_of uu [g] (x_node (map term_of g) [])
    (mkas [] (y_ret y) [top_block (cf_position cf)] None [] (y_sb y) None false (y_consumed y) (et_errs (c_et (user s))) (y_fresh y) [])).
  { constructor; cbn; auto.
    - rewrite app_nil_r. unfold g. rewrite ghosts_ids. apply seq_NoDup.
    - rewrite app_nil_r. unfold g, ghosts. apply Forall_forall. intros z HI. apply in_map_iff in HI. destruct HI as (i & <- & HI).
      apply in_seq in HI. cbn. lia.
    - exists []. split; [reflexivity|constructor].
    - exists [], [], []. split; [reflexivity|]. split; [constructor|]. split; apply lst_nil. }
  destruct (texec_sound inp rest_of eff _ _ _ X1 uu [g] _ _ _ _ K3 (eq_refl : e_inp (mkxe inp (la inp (pos s)) (y_off y) (c_lines (user s)) (pos s)) = inp) RR He) as (r2 & R2).
  split; [|eexists; exists x; split; [exact R2|exact X2]].
  apply exec_errcount in He. cbn in He.
  assert (E : et_errs (c_et (user s)) = []).
  { pose proof (rsafe_sound (cf_color cf) (y_off y) inp k (PRule (start_rule fl)) false (match_start y)) as W. rewrite Hx in W.
    destruct (errs (user s)) as [|z zs] eqn:EE; [exact EE|]. exfalso.
    assert (Z : skips (thunks s) = true).
    { apply W; [unfold start_rule; destruct (pf_only_statements fl); reflexivity|discriminate| |rewrite EE; discriminate].
      intros H. exfalso. apply H. apply Hq. }
    rewrite (plain_skips _ _ _ _ _ _ _ Hx K2 eq_refl eq_refl) in Z. discriminate. }
  rewrite E in He. destruct (a_errs a); [reflexivity|discriminate].
Qed.
(** a round that gives one tree *)
Definition gives (tm : term) (x : xst) : Prop :=
  exists h ret pv ops sb hp, x = mkx [] ret [] [] [S h] pv ops sb (Some (Some (S h))) false hp /\ nth_error hp (S h) = Some [tm].
Lemma round_rest : forall cf la fl inp y rest_of eff fact n w w2 t' tr obs tm,
  bq_ok inp -> quiet y -> inp <> [] -> (forall p, List.length inp <= la inp p) ->
  trun fact n (PRule (start_rule fl)) w (mkt None []) = TOk w2 t' tr true obs ->
  text rest_of w = inp ->
  Forall (ob (cf_color cf) (y_off y) inp rest_of (fun i => performs inp (eff i))) obs ->
  (forall g, exists h ret pv ops sb hp,
     texec eff (slice_real inp rest_of) trim chain_real tr (x_node g []) =
       Some (mkx [] ret [] [] [S h] pv ops sb (Some (Some (S h))) false hp) /\ nth_error hp (S h) = Some [tm]) ->
  exists lines a u, parse_one cf la (start_rule fl) inp y = RdOk (List.length inp - List.length (text rest_of w2)) lines a u /\
    said_by tm a /\ a_errs a = [] /\ a_eof a = false.
Proof.
  intros cf la fl inp y rest_of eff fact n w w2 t' tr obs tm Hbq Hq Hne Hla HT HW HO HX.
  destruct (round_gen cf la fl inp y rest_of eff fact n w w2 t' tr obs (gives tm) Hbq Hq Hne Hla HT HW HO) as (lines & a & u & E1 & E2 & rho & x & R2 & X).
  { intros g. destruct (HX g) as (h & ret & pv & ops & sb & hp & X1 & X2). eexists. split; [exact X1|]. exists h, ret, pv, ops, sb, hp. auto. }
  exists lines, a, u. split; [exact E1|]. destruct X as (h & ret & pv & ops & sb & hp & -> & X2).
  destruct R2 as [Q1 Q2 Q3 (fs & G1 & G2) (b2 & ss & ks & C1 & C2 & C3 & C4) Q6 Q7 Q8 Q9 Q10 Q11]. cbn in *.
  rewrite Q1 in X2. destruct (nth_map_some rho (S h) tm X2) as (nd & N1 & N2). cbn in N1.
  split; [|split; [exact E2|exact Q11]].
  exists nd. destruct (a_result a) as [nd'|]; [|contradiction]. split; [congruence|]. split; [exact N2|].
  inversion C2; subst. cbn in C1. exists (grow (top_block (cf_position cf)) ss ks). split; [exact C1|].
  apply (lst_1 _ _ [nd]) in C4; [|exact N1]. subst ks. reflexivity.
Qed.
Lemma round_top : forall cf la fl inp y rest_of eff fact n w t' tr obs tm,
  bq_ok inp -> quiet y -> inp <> [] -> (forall p, List.length inp <= la inp p) ->
  trun fact n (PRule (start_rule fl)) w (mkt None []) = TOk [] t' tr true obs ->
  text rest_of w = inp ->
  Forall (ob (cf_color cf) (y_off y) inp rest_of (fun i => performs inp (eff i))) obs ->
  (forall g, exists h ret pv ops sb hp,
     texec eff (slice_real inp rest_of) trim chain_real tr (x_node g []) =
       Some (mkx [] ret [] [] [S h] pv ops sb (Some (Some (S h))) false hp) /\ nth_error hp (S h) = Some [tm]) ->
  exists lines a u, parse_one cf la (start_rule fl) inp y = RdOk (List.length inp) lines a u /\
    said_by tm a /\ a_errs a = [] /\ a_eof a = false.
Proof.
  intros cf la fl inp y rest_of eff fact n w t' tr obs tm Hbq Hq Hne Hla HT HW HO HX.
  pose proof (round_rest _ _ _ _ _ _ _ _ _ _ _ _ _ _ _ Hbq Hq Hne Hla HT HW HO HX) as H. cbn [text flat_map List.length] in H.
  rewrite Nat.sub_0_r in H. exact H.
Qed.
(** a round that gives none *)
Definition gives_none (e : bool) (x : xst) : Prop := exists ret pv ops sb hp, x = mkx [] ret [] [] [] pv ops sb (Some None) e hp.
Definition silent (a : astate) : Prop := a_result a = None /\ exists b, a_blocks a = [b] /\ b_kids b = [].
Lemma round_none : forall cf la fl inp y rest_of eff fact n w w2 t' tr obs e,
  bq_ok inp -> quiet y -> inp <> [] -> (forall p, List.length inp <= la inp p) ->
  trun fact n (PRule (start_rule fl)) w (mkt None []) = TOk w2 t' tr true obs ->
  text rest_of w = inp ->
  Forall (ob (cf_color cf) (y_off y) inp rest_of (fun i => performs inp (eff i))) obs ->
  (forall sl tf cf' g, exists ret pv ops sb hp, texec eff sl tf cf' tr (x_node g []) = Some (mkx [] ret [] [] [] pv ops sb (Some None) e hp)) ->
  exists lines a u, parse_one cf la (start_rule fl) inp y = RdOk (List.length inp - List.length (text rest_of w2)) lines a u /\
    silent a /\ a_errs a = [] /\ a_eof a = e.
Proof.
  intros cf la fl inp y rest_of eff fact n w w2 t' tr obs e Hbq Hq Hne Hla HT HW HO HX.
  destruct (round_gen cf la fl inp y rest_of eff fact n w w2 t' tr obs (gives_none e) Hbq Hq Hne Hla HT HW HO) as (lines & a & u & E1 & E2 & rho & x & R2 & X).
  { intros g. destruct (HX (slice_real inp rest_of) trim chain_real g) as (ret & pv & ops & sb & hp & X1). eexists. split; [exact X1|]. exists ret, pv, ops, sb, hp. auto. }
  exists lines, a, u. split; [exact E1|]. destruct X as (ret & pv & ops & sb & hp & ->).
  destruct R2 as [Q1 Q2 Q3 (fs & G1 & G2) (b2 & ss & ks & C1 & C2 & C3 & C4) Q6 Q7 Q8 Q9 Q10 Q11]. cbn in *.
  split; [|split; [exact E2|rewrite Q11; apply orb_false_r]].
  split; [destruct (a_result a); [contradiction|reflexivity]|].
  inversion C2; subst. cbn in C1. exists (grow (top_block (cf_position cf)) ss ks). split; [exact C1|].
  destruct C4 as (gs & F & ->). inversion F; subst. reflexivity.
Qed.

(** ** The whole call *)
Lemma skipn_all' : forall (l : bytes), skipn (List.length l) l = [].
Proof. intros. apply skipn_all. Qed.

Lemma parse_top : forall cf la cb fl inp tm, inp <> [] -> (forall segs, cb segs = 0%Z) ->
  (exists lines a u, parse_one cf la (start_rule fl) inp (carry0 cf) = RdOk (List.length inp) lines a u /\
    said_by tm a /\ a_errs a = [] /\ a_eof a = false) ->
  exists seg root en, parse_each cf la cb fl inp = PRet 0 [seg] (Some en) /\ s_errors seg = [] /\ s_roots seg = [root] /\
    s_directive seg = Some (nid root) /\ s_eof seg = false /\ term_of root = tm.
Proof.
  intros cf la cb fl inp tm Hne Hcb (lines & a & u & HP & (n & S1 & S2 & b & S3 & S4) & HE & HF).
  rewrite parse_each_eq. cbn [ploop]. rewrite HP.
  pose proof (round_ok _ _ _ _ _ _ _ _ _ (start_entry fl) HP) as [F1 F2 F3 F4 F5].
  assert (0 < List.length inp) by (apply F2; exact Hne).
  destruct (Nat.eqb_spec (a_consumed a) 0) as [E0|E0]; [lia|].
  rewrite at_byte_some by exact F5. rewrite Hcb. cbn [Z.ltb Z.compare]. rewrite S3, S4, S1, HE, HF.
  set (en := at_byte (y_off (carry0 cf)) lines (a_consumed a)).
  pose proof (term_ordinals n (cf_ordinal cf)) as [O1 O2].
  set (seg := make_segment (cf_ordinal cf) (mkrange (y_off (carry0 cf)) en) [] [n] (Some n) false).
  assert (G : exists root, s_errors seg = [] /\ s_roots seg = [root] /\
    s_directive seg = Some (nid root) /\ s_eof seg = false /\ term_of root = tm).
  { unfold seg, make_segment. cbn [set_ordinals_all].
    destruct (set_ordinals n (cf_ordinal cf)) as [n' m]. cbn in O1, O2 |- *. exists n'. repeat split; congruence. }
  destruct G as (root & G). exists seg, root, en. split; [|exact G].
  destruct (pf_single fl); cbn [orb]; [reflexivity|]. rewrite skipn_all.
  destruct (List.length inp) as [|k] eqn:EL; [lia|]. cbn [ploop].
  match goal with |- context [parse_one cf la (start_rule fl) [] ?y] => 
    destruct (round_nil cf la (start_rule fl) y (start_entry fl) eq_refl) as (l2 & a2 & u2 & E & E1 & E2 & E3 & E4) end.
  rewrite E, E4, E1, E2, E3. reflexivity.
Qed.
