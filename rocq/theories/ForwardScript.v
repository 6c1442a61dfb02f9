(** * Scripts: one round after the other *)
From Coq Require Import List Bool Arith Ascii String ZArith Lia Permutation.
From Verif Require Import Peg PegProofs PegThunks QuickModel QuickSpec QuickProofs CypherSyntax CypherGrammar OperModel ErrModel
  CypherMatch AstTypes AstModel CypherBuild CypherExec CypherParse CypherRun CypherRound CypherLoop CypherInv CypherChain CypherSpec SafeSpec
  NodeFacts NodeHeld FlowSound FlowRun SafeProofs SkipProofs TraceSpec TraceProofs LexSpec LexProofs TermSpec Forward ForwardExec ForwardLex
  ForwardStep ForwardAtom ForwardExpr ForwardName ForwardNum ForwardPat ForwardForm ExprSpec ForwardPrint StmtSpec ForwardStmt ForwardClause
  ForwardItem ForwardPattern ForwardQuery ForwardCall ForwardQueries ForwardTop ForwardReturn ForwardStatement CommandSpec ForwardCommand ScriptSpec.
Import ListNotations.
Open Scope peg_scope.
Opaque parse_one cfuel.
Strategy expand [crun].

(** ** White space *)
Section White.
Variables (col : coloring) (off : position) (inp : bytes).
Notation runc := (run CG (get_of inp) (cprun col off)).
Notation takes := (takes col off inp).
Notation refuses := (refuses col off inp).
Notation performs := (performs inp).

Lemma none_app : forall l1 l2, performs HNone l1 -> performs HNone l2 -> performs HNone (l1 ++ l2).
Proof.
  intros l1 l2 H1 H2 e a a' b bs HE Hex HB. rewrite exec_app in Hex.
  destruct (exec e l1 a) as [a1| | |] eqn:E1; cbn in Hex; try discriminate. 
  pose proof (H1 e a a1 b bs HE E1 HB) as X1. cbn in X1. subst a1. exact (H2 e a a' b bs HE Hex HB).
Qed.
Lemma star_white : forall t x u1 u2 R, takes t x u1 (u2 ++ R) HNone -> takes (mkt None (t_prs t)) (PStar x) u2 R HNone ->
  takes t (PStar x) (u1 ++ u2) R HNone.
Proof.
  intros t x u1 u2 R H1 H2 m s HH HS. destruct m as [|m]; [exact I|]. cbn [Peg.run visits].
  rewrite <- app_assoc in HH. specialize (H1 m s HH HS). destruct (runc m x s) as [s1|s1| |]; auto; [|contradiction].
  destruct H1 as (T1 & T2 & (l1 & L1 & P1) & T4). specialize (H2 m s1 T1 ltac:(split; [exact T2|exact I])). cbn [t_prs] in H2.
  destruct (runc m (PStar x) s1) as [s3|s3| |]; auto. destruct H2 as (U1 & U2 & (l2 & L2 & P2) & U4).
  split; [exact U1|]. split; [exact U2|]. split; [|apply plain_app; assumption].
  exists (l1 ++ l2). split; [rewrite rev_app_distr, <- app_assoc, L2, L1; reflexivity|]. apply none_app; assumption.
Qed.
Ltac white_of R' kw w t :=
  eapply (take_of col off inp (many [] R') (effs []) nofact 60 _ (map Kn kw ++ w) t);
  [run_trun|reflexivity|apply Forall_nil|apply none_ok|nrm_; reflexivity|nrm_; reflexivity].
Lemma white_char : forall c R t, In c [" "; "009"; "010"]%char -> takes t ((PRule R_WS : cexp) ∥ PRule R_comment) [c] R HNone.
Proof.
  intros c R t HC. cbn [In] in HC.
  destruct HC as [<-|[<-|[<-|[]]]]; (destruct R as [|c9 R'];
    [lazymatch goal with |- context [takes _ _ [?c] _ _] => white_of (@nil ascii) [c] (@nil tok) t end
    |lazymatch goal with |- context [takes _ _ [?c] _ _] => white_of R' [c] [Ho 9 c9] t end]).
Qed.
Lemma white_crlf : forall R t, takes t ((PRule R_WS : cexp) ∥ PRule R_comment) ["013"%char; "010"%char] R HNone.
Proof. intros [|c9 R'] t; [white_of (@nil ascii) ["013"%char; "010"%char] (@nil tok) t|white_of R' ["013"%char; "010"%char] [Ho 9 c9] t]. Qed.
Lemma white_none : forall R t, R = [] \/ gapfree R -> takes t sp1 [] R HNone.
Proof.
  intros R t [->|HG].
  - white_of (@nil ascii) (@nil ascii) (@nil tok) t.
  - pose proof HG as HG0. destruct (gap_open _ HG) as (c & r & -> & _). intros m s HH HS.
    pose proof (ob_sp col off inp (fun _ => r) (fun _ _ => True) [Ho 1 c] t) as H. cbn [text flat_map text1 app] in H. rewrite app_nil_r in H.
    specialize (H HG0 m s). cbn [o_at o_st o_verdict o_exp] in H.
    assert (A : at_toks inp (fun _ => r) (pos s) [Ho 1 c]) by (unfold at_toks; cbn [text flat_map text1 app]; rewrite app_nil_r; exact HH).
    specialize (H A HS). destruct (runc m sp1 s) as [s'|s'| |]; auto. destruct H as (H1 & H2 & [H3 H3'] & H4).
    split; [unfold here in *; rewrite H1; exact HH|]. split; [exact H3|]. split; [|exact H4]. exists []. split; [rewrite H2; reflexivity|apply performs_none].
Qed.
Lemma take_white : forall g R t, white g -> R = [] \/ gapfree R -> takes t (PRule R_sp) g R HNone.
Proof.
  intros g R t HW HR.
  assert (K : forall t, takes t sp1 g R HNone).
  { induction HW as [|c u HC HW IH|u HW IH]; intros t'; [apply white_none, HR| |].
    - apply (star_white t' _ [c] u R); [apply white_char, HC|apply IH].
    - apply (star_white t' _ ["013"%char; "010"%char] u R); [apply white_crlf|apply IH]. }
  intros m s HH HS. destruct m as [|m]; [exact I|]. cbn [Peg.run visits]. specialize (K t m s HH HS).
  change (CG R_sp) with sp1. destruct (runc m sp1 s) as [s'|s'| |]; auto. destruct K as (K1 & K2 & K3 & K4).
  split; [exact K1|]. split; [exact K2|]. split; [exact K3|]. constructor; [reflexivity|exact K4].
Qed.
End White.

(** ** Rounds *)
Ltac run_none :=
  intros;
  lazymatch goal with |- exists ret pv ops sb hp, ?x = _ =>
    let v := eval vm_compute in x in
    lazymatch v with
    | Some (mkx _ ?ret _ _ _ ?pv ?ops ?sb _ _ ?hp) => exists ret, pv, ops, sb, hp; vm_cast_no_check (eq_refl v)
    | _ => fail "execution" v
    end
  end.
Ltac eqs_ := nrm_; rewrite ?app_nil_r; first [reflexivity|eassumption|symmetry; eassumption].
Ltac obl_ tac :=
  obs_ ltac:(first [eapply ob_take; [cbn [effs nth]; eapply takes_at; [solve [tac]|eqs_]|eqs_]
                   |apply ob_refuse; eapply refuses_at; [solve [tac]|eqs_]]).
Lemma script_round : forall cf la fl y s g u R, white g -> prints_stmt s u -> bq_ok (g ++ u ++ R) -> quiet y ->
  (forall p, List.length (g ++ u ++ R) <= la (g ++ u ++ R) p) ->
  exists p lines a us, parse_one cf la (start_rule fl) (g ++ u ++ R) y = RdOk p lines a us /\
    skipn p (g ++ u ++ R) = R /\ said_by (stmt_term s) a /\ a_errs a = [] /\ a_eof a = false.
Proof.
  intros cf la fl y s g u R HW HP Hbq Hq Hla. set (inp := g ++ u ++ R) in *.
  pose proof (fun t => take_statement (cf_color cf) (y_off y) inp s u R t HP) as HT.
  assert (HS : begins w_start (u ++ R)) by (apply begins_app; apply (HT (mkt None []))).
  assert (H1 : forall t, takes (cf_color cf) (y_off y) inp t (PRule R_cypher_statement) u R (HNode (stmt_term s))) by (intros t; apply (HT t)).
  assert (N1 : forall t, refuses (cf_color cf) (y_off y) inp t (PRule R_EOF) (u ++ R)) by (eapply refuse_at; [|exact HS]; stop_).
  assert (N2 : forall t, refuses (cf_color cf) (y_off y) inp t (PRule R_SEMICOLON) (u ++ R)) by (eapply refuse_at; [|exact HS]; stop_).
  assert (N3 : forall t, refuses (cf_color cf) (y_off y) inp t (PRule R_client_command) (u ++ R)) by (eapply refuse_at; [|exact HS]; stop_).
  pose proof (start_gap _ HS) as HG. 
  assert (H0 : forall t, takes (cf_color cf) (y_off y) inp t (PRule R_sp) g (u ++ R) HNone) by (intros t; apply take_white; [exact HW|right; exact HG]).
  clear HT HS HP HW. generalize dependent (stmt_term s). intros tm H1.
  destruct (gap_open _ HG) as (c2 & r2 & EU & HG').
  assert (EI : exists c1 r1, inp = c1 :: r1) by (unfold inp; rewrite EU; destruct g as [|c0 g0]; cbn; eauto). destruct EI as (c1 & r1 & EI).
  assert (HN : inp <> []) by (rewrite EI; discriminate). 
  assert (EL : forall T, T = R -> skipn (List.length inp - List.length T) inp = R).
  { intros T ->. unfold inp. rewrite app_assoc. rewrite app_length. replace (List.length (g ++ u) + List.length R - List.length R) with (List.length (g ++ u)) by lia.
    rewrite skipn_app, skipn_all, Nat.sub_diag. reflexivity. }
  assert (EG : inp = g ++ (u ++ R)) by reflexivity.
  assert (K : exists lines a us T, T = R /\ parse_one cf la (start_rule fl) inp y = RdOk (List.length inp - List.length T) lines a us /\
    said_by tm a /\ a_errs a = [] /\ a_eof a = false).
  2:{ destruct K as (lines & a & us & T & K0 & K1 & K2). exists (List.length inp - List.length T), lines, a, us. split; [exact K1|]. split; [apply EL, K0|exact K2]. }
  clearbody inp. destruct fl as [sg os]. 
  destruct R as [|c9 R'].
  - rewrite ?app_nil_r in *. rename EU into E2. rename EI into E1.
    destruct os; lazymatch goal with |- context [start_rule ?f] => edestruct (round_rest cf la f inp y (many [[]; r1; r2] []) (effs [HNone; HNode tm])
        (fact_tab [(R_sp, [1], FTake 0 [Ho 2 c2]); (R_EOF, [2], FFail); (R_SEMICOLON, [2], FFail); (R_client_command, [2], FFail); (R_cypher_statement, [2], FTake 1 [])] []) 100 [Ho 1 c1])
        as (lines & a & us & K); [exact Hbq|exact Hq|exact HN|exact Hla|run_trun|eqs_| |apply top_generic; run_top|] end.
    all: try (obl_ ltac:(first [apply H0|apply H1|apply N1|apply N2|apply N3])).
    all: exists lines, a, us, (@nil ascii); split; [reflexivity|exact K].
  - rename EU into E2. rename EI into E1.
    destruct os; lazymatch goal with |- context [start_rule ?f] => edestruct (round_rest cf la f inp y (many [[]; r1; r2] R') (effs [HNone; HNode tm])
        (fact_tab [(R_sp, [1], FTake 0 [Ho 2 c2]); (R_EOF, [2], FFail); (R_SEMICOLON, [2], FFail); (R_client_command, [2], FFail); (R_cypher_statement, [2], FTake 1 [Ho 9 c9])] []) 100 [Ho 1 c1])
        as (lines & a & us & K); [exact Hbq|exact Hq|exact HN|exact Hla|run_trun|eqs_| |apply top_generic; run_top|] end.
    all: try (obl_ ltac:(first [apply H0|apply H1|apply N1|apply N2|apply N3])).
    all: exists lines, a, us, (text (many [[]; r1; r2] R') [Ho 9 c9]); split; [nrm_; reflexivity|exact K].
Qed.
Lemma command_round : forall cf la fl y n args g u R, pf_only_statements fl = false -> white g -> prints_command n args u -> bq_ok (g ++ u ++ R) -> quiet y ->
  (forall p, List.length (g ++ u ++ R) <= la (g ++ u ++ R) p) ->
  exists p lines a us, parse_one cf la (start_rule fl) (g ++ u ++ R) y = RdOk p lines a us /\
    skipn p (g ++ u ++ R) = R /\ said_by (command_term n args) a /\ a_errs a = [] /\ a_eof a = false.
Proof.
  intros cf la fl y n args g u R Hfl HW HP Hbq Hq Hla. set (inp := g ++ u ++ R) in *.
  pose proof (fun t => take_command (cf_color cf) (y_off y) inp n args u R t HP) as H1.
  assert (EU : exists c3 r2, u ++ R = ":"%char :: c3 :: r2).
  { exact (command_head n args u R HP). }
  destruct EU as (c3 & r3 & EU).
  assert (N1 : forall t, refuses (cf_color cf) (y_off y) inp t (PRule R_EOF) (u ++ R)).
  { intros t. rewrite EU. replace (":"%char :: c3 :: r3) with (text (many [] r3) [Kn ":"%char; Ho 9 c3]) by (cbn; rewrite ?app_nil_r; reflexivity).
    eapply (refuse_of _ _ inp (many [] r3) (effs []) nofact 20); [run_fail|reflexivity|apply Forall_nil]. }
  assert (N2 : forall t, refuses (cf_color cf) (y_off y) inp t (PRule R_SEMICOLON) (u ++ R)).
  { intros t. rewrite EU. replace (":"%char :: c3 :: r3) with (text (many [] r3) [Kn ":"%char; Ho 9 c3]) by (cbn; rewrite ?app_nil_r; reflexivity).
    eapply (refuse_of _ _ inp (many [] r3) (effs []) nofact 20); [run_fail|reflexivity|apply Forall_nil]. }
  assert (HG : gapfree (u ++ R)) by (rewrite EU; gapchar).
  assert (H0 : forall t, takes (cf_color cf) (y_off y) inp t (PRule R_sp) g (u ++ R) HNone) by (intros t; apply take_white; [exact HW|right; exact HG]).
  clear HP HW. generalize dependent (command_term n args). intros tm H1. set (r2 := c3 :: r3) in *. clearbody r2.
  assert (HG' : gapfree (":"%char :: r2)) by (rewrite <- EU; exact HG).
  assert (EI : exists c1 r1, inp = c1 :: r1) by (unfold inp; rewrite EU; destruct g as [|c0 g0]; cbn; eauto). destruct EI as (c1 & r1 & EI).
  assert (HN : inp <> []) by (rewrite EI; discriminate). 
  assert (EL : forall T, T = R -> skipn (List.length inp - List.length T) inp = R).
  { intros T ->. unfold inp. rewrite app_assoc. rewrite app_length. replace (List.length (g ++ u) + List.length R - List.length R) with (List.length (g ++ u)) by lia.
    rewrite skipn_app, skipn_all, Nat.sub_diag. reflexivity. }
  assert (EG : inp = g ++ (u ++ R)) by reflexivity.
  assert (K : exists lines a us T, T = R /\ parse_one cf la (start_rule fl) inp y = RdOk (List.length inp - List.length T) lines a us /\
    said_by tm a /\ a_errs a = [] /\ a_eof a = false).
  2:{ destruct K as (lines & a & us & T & K0 & K1 & K2). exists (List.length inp - List.length T), lines, a, us. split; [exact K1|]. split; [apply EL, K0|exact K2]. }
  clearbody inp. destruct fl as [sg os]. cbn in Hfl. subst os.
  rename EU into E2. rename EI into E1.
  destruct R as [|c9 R'].
  - rewrite ?app_nil_r in *.
    lazymatch goal with |- context [start_rule ?f] => edestruct (round_rest cf la f inp y (many [[]; r1; r2] []) (effs [HNone; HNode tm])
        (fact_tab [(R_sp, [1], FTake 0 [Ho 2 ":"%char]); (R_EOF, [2], FFail); (R_SEMICOLON, [2], FFail); (R_client_command, [2], FTake 1 [])] []) 100 [Ho 1 c1])
        as (lines & a & us & K); [exact Hbq|exact Hq|exact HN|exact Hla|run_trun|eqs_| |apply top_generic; run_top|] end.
    all: try (obl_ ltac:(first [apply H0|apply H1|apply N1|apply N2])).
    all: exists lines, a, us, (@nil ascii); split; [reflexivity|exact K].
  - lazymatch goal with |- context [start_rule ?f] => edestruct (round_rest cf la f inp y (many [[]; r1; r2] R') (effs [HNone; HNode tm])
        (fact_tab [(R_sp, [1], FTake 0 [Ho 2 ":"%char]); (R_EOF, [2], FFail); (R_SEMICOLON, [2], FFail); (R_client_command, [2], FTake 1 [Ho 9 c9])] []) 100 [Ho 1 c1])
        as (lines & a & us & K); [exact Hbq|exact Hq|exact HN|exact Hla|run_trun|eqs_| |apply top_generic; run_top|] end.
    all: try (obl_ ltac:(first [apply H0|apply H1|apply N1|apply N2])).
    all: exists lines, a, us, (text (many [[]; r1; r2] R') [Ho 9 c9]); split; [nrm_; reflexivity|exact K].
Qed.
Lemma entry_round : forall cf la fl y e g u R, allowed fl e -> white g -> prints_entry e u -> bq_ok (g ++ u ++ R) -> quiet y ->
  (forall p, List.length (g ++ u ++ R) <= la (g ++ u ++ R) p) ->
  exists p lines a us, parse_one cf la (start_rule fl) (g ++ u ++ R) y = RdOk p lines a us /\
    skipn p (g ++ u ++ R) = R /\ said_by (entry_term e) a /\ a_errs a = [] /\ a_eof a = false.
Proof.
  intros cf la fl y e g u R HA HW HP. destruct HP as [s u HP|n args u HP]; [apply script_round; assumption|apply command_round; try assumption].
  destruct (pf_only_statements fl) eqn:E; [|reflexivity]. destruct (HA E) as (s & ES). discriminate ES.
Qed.
Lemma empty_round : forall cf la fl y g R, white g -> bq_ok (g ++ B ";" ++ R) -> quiet y ->
  (forall p, List.length (g ++ B ";" ++ R) <= la (g ++ B ";" ++ R) p) ->
  exists p lines a us, parse_one cf la (start_rule fl) (g ++ B ";" ++ R) y = RdOk p lines a us /\
    skipn p (g ++ B ";" ++ R) = R /\ silent a /\ a_errs a = [] /\ a_eof a = false.
Proof.
  intros cf la fl y g R HW Hbq Hq Hla. set (inp := g ++ B ";" ++ R) in *.
  assert (HG : gapfree (B ";" ++ R)) by gapchar.
  assert (H0 : forall t, takes (cf_color cf) (y_off y) inp t (PRule R_sp) g (B ";" ++ R) HNone) by (intros t; apply take_white; [exact HW|right; exact HG]).
  assert (EI : exists c1 r1, inp = c1 :: r1) by (unfold inp; destruct g as [|c0 g0]; cbn; eauto). destruct EI as (c1 & r1 & E1).
  assert (HN : inp <> []) by (rewrite E1; discriminate). 
  assert (EL : forall T, T = R -> skipn (List.length inp - List.length T) inp = R).
  { intros T ->. unfold inp. rewrite app_assoc. rewrite app_length. replace (List.length (g ++ B ";") + List.length R - List.length R) with (List.length (g ++ B ";")) by lia.
    rewrite skipn_app, skipn_all, Nat.sub_diag. reflexivity. }
  assert (EG : inp = g ++ ";"%char :: R) by reflexivity.
  assert (K : exists lines a us T, T = R /\ parse_one cf la (start_rule fl) inp y = RdOk (List.length inp - List.length T) lines a us /\
    silent a /\ a_errs a = [] /\ a_eof a = false).
  2:{ destruct K as (lines & a & us & T & K0 & K1 & K2). exists (List.length inp - List.length T), lines, a, us. split; [exact K1|]. split; [apply EL, K0|exact K2]. }
  clearbody inp. destruct fl as [sg os]. clear HW HG EL. cbn [B list_ascii_of_string app] in *.
  destruct R as [|c9 R'].
  - destruct os; lazymatch goal with |- context [start_rule ?f] => edestruct (round_none cf la f inp y (many [[]; r1] []) (effs [HNone])
        (fact_tab [(R_sp, [1], FTake 0 [Kn ";"%char])] []) 100 [Ho 1 c1])
        as (lines & a & us & K); [exact Hbq|exact Hq|exact HN|exact Hla|run_trun|eqs_| |run_none|] end.
    all: try (obl_ ltac:(first [apply H0])).
    all: exists lines, a, us, (@nil ascii); split; [reflexivity|exact K].
  - destruct os; lazymatch goal with |- context [start_rule ?f] => edestruct (round_none cf la f inp y (many [[]; r1] R') (effs [HNone])
        (fact_tab [(R_sp, [1], FTake 0 [Kn ";"%char; Ho 9 c9])] []) 100 [Ho 1 c1])
        as (lines & a & us & K); [exact Hbq|exact Hq|exact HN|exact Hla|run_trun|eqs_| |run_none|] end.
    all: try (obl_ ltac:(first [apply H0])).
    all: exists lines, a, us, (text (many [[]; r1] R') [Ho 9 c9]); split; [nrm_; reflexivity|exact K].
Qed.
Lemma white_round : forall cf la fl y g, white g -> g <> [] -> bq_ok g -> quiet y -> (forall p, List.length g <= la g p) ->
  exists lines a us, parse_one cf la (start_rule fl) g y = RdOk (List.length g) lines a us /\ silent a /\ a_errs a = [] /\ a_eof a = true.
Proof.
  intros cf la fl y g HW HN Hbq Hq Hla.
  assert (H0 : forall t, takes (cf_color cf) (y_off y) g t (PRule R_sp) g [] HNone) by (intros t; apply take_white; [exact HW|left; reflexivity]).
  assert (EI : exists c1 r1, g = c1 :: r1) by (destruct g as [|c0 g0]; [congruence|eauto]). destruct EI as (c1 & r1 & E1).
  assert (EG : g = g ++ []) by (symmetry; apply app_nil_r).
  assert (K : exists lines a us T, T = [] /\ parse_one cf la (start_rule fl) g y = RdOk (List.length g - List.length (T : bytes)) lines a us /\
    silent a /\ a_errs a = [] /\ a_eof a = true).
  2:{ destruct K as (lines & a & us & T & -> & K1 & K2). exists lines, a, us. cbn [List.length] in K1. rewrite Nat.sub_0_r in K1. split; [exact K1|exact K2]. }
  destruct fl as [sg os]. clear HW.
  destruct os; lazymatch goal with |- context [start_rule ?f] => edestruct (round_none cf la f g y (many [[]; r1] []) (effs [HNone])
        (fact_tab [(R_sp, [1], FTake 0 [])] []) 100 [Ho 1 c1])
        as (lines & a & us & K); [exact Hbq|exact Hq|exact HN|exact Hla|run_trun|eqs_| |run_none|] end.
  all: try (obl_ ltac:(first [apply H0])).
  all: exists lines, a, us, (@nil ascii); split; [reflexivity|exact K].
Qed.

(** ** The loop *)
Lemma said_segment : forall tm a o r, said_by tm a -> a_errs a = [] ->
  let seg := make_segment o r (a_errs a) (match a_blocks a with b :: _ => b_kids b | [] => [] end) (a_result a) (a_eof a) in
  clean seg /\ terms_of seg = [tm] /\ has_directive seg = true.
Proof.
  intros tm a o r (n & S1 & S2 & b & S3 & S4) HE. cbv zeta. rewrite S3, S4, S1, HE. pose proof (term_ordinals n o) as [O1 O2].
  unfold make_segment, clean, terms_of, has_directive. cbn [set_ordinals_all].
  destruct (set_ordinals n o) as [n' m]. cbn in O1, O2 |- *. repeat split; try congruence. lia.
Qed.
Lemma silent_segment : forall a o r, silent a -> a_errs a = [] ->
  let seg := make_segment o r (a_errs a) (match a_blocks a with b :: _ => b_kids b | [] => [] end) (a_result a) (a_eof a) in
  clean seg /\ terms_of seg = [] /\ has_directive seg = false.
Proof.
  intros a o r (S1 & b & S3 & S4) HE. cbv zeta. rewrite S3, S4, S1, HE. 
  unfold make_segment, clean, terms_of, has_directive. cbn. repeat split. lia.
Qed.
Lemma entry_nonempty : forall e u, prints_entry e u -> 0 < List.length u.
Proof. intros e u [s u' [os b uo ub _ _]|n args u' [n' g un e' _ _ _|n' args' g un g' ua e' _ _ _ _ _ _]]; rewrite !app_length; cbn; lia. Qed.
Lemma script_loop : forall ss u, prints_script ss u -> forall k cf la cb fl o y done last, Forall (allowed fl) ss -> pf_single fl = false ->
  (forall segs, cb segs = 0%Z) -> bq_ok u -> quiet y -> (forall s p, List.length s <= la s p) -> List.length u < k ->
  exists segs last', ploop k cf la cb fl u o y done last = PRet 0 (done ++ segs) last' /\ Forall clean segs /\
    map terms_of (filter has_directive segs) = map (fun s => [entry_term s]) ss.
Proof.
  induction 1 as [g HW|g s u ss us HW HS HP IH|g ss us HW HP IH]; intros k cf la cb fl o y done last HA Hfl Hcb Hbq Hq Hla Hk.
  - destruct k as [|k]; [lia|]. destruct g as [|c g'] eqn:EG.
    + cbn [ploop]. destruct Hq as [Hq1 Hq2].
      destruct (round_nil cf la (start_rule fl) y (start_entry fl) Hq1) as (l2 & a2 & u2 & E & E1 & E2 & E3 & E4).
      rewrite E, E4, E1, E2, E3. exists [], last. rewrite app_nil_r. split; [reflexivity|]. split; [constructor|reflexivity].
    + rewrite <- EG in *. assert (HN : g <> []) by (rewrite EG; discriminate). clear EG.
      destruct (white_round cf la fl y g HW HN Hbq Hq (Hla g)) as (lines & a & us & E & HS & HE & HF).
      cbn [ploop]. rewrite E. pose proof (round_ok _ _ _ _ _ _ _ _ _ (start_entry fl) E) as [F1 F2 F3 F4 F5].
      specialize (F2 HN). destruct (Nat.eqb_spec (a_consumed a) 0) as [E0|E0]; [lia|].
      rewrite at_byte_some by exact F5. cbv zeta. match goal with |- context [make_segment ?x1 ?x2 ?x3 ?x4 ?x5 ?x6] => set (seg := make_segment x1 x2 x3 x4 x5 x6) end.
    rewrite Hcb. cbn [Z.ltb Z.compare]. rewrite HF. cbn [orb].
      eexists [seg], _. split; [reflexivity|]. destruct (silent_segment a o (mkrange (y_off y) (at_byte (y_off y) lines (a_consumed a))) HS HE) as (K1 & K2 & K3). fold seg in K1, K2, K3.
      split; [constructor; [exact K1|constructor]|]. cbn [filter]. rewrite K3. reflexivity.
  - destruct k as [|k]; [lia|]. pose proof (entry_nonempty _ _ HS) as HN. inversion HA as [|? ? HA1 HA2]; subst.
    destruct (entry_round cf la fl y s g u us HA1 HW HS Hbq Hq (Hla _)) as (p & lines & a & uu & E & ES & HY & HE & HF).
    set (inp := g ++ u ++ us) in *. assert (HI : List.length us < List.length inp) by (unfold inp; rewrite !app_length; lia).
    cbn [ploop]. rewrite E. pose proof (round_ok _ _ _ _ _ _ _ _ _ (start_entry fl) E) as [F1 F2 F3 F4 F5].
    assert (HN' : inp <> []) by (intros K; rewrite K in HI; cbn in HI; lia). specialize (F2 HN').
    destruct (Nat.eqb_spec (a_consumed a) 0) as [E0|E0]; [lia|].
    rewrite at_byte_some by exact F5. cbv zeta. match goal with |- context [make_segment ?x1 ?x2 ?x3 ?x4 ?x5 ?x6] => set (seg := make_segment x1 x2 x3 x4 x5 x6) end.
    rewrite Hcb. cbn [Z.ltb Z.compare]. rewrite HF. rewrite Hfl. cbn [orb]. 
    assert (HB : bq_ok us) by (rewrite <- ES; apply bq_ok_skipn, Hbq). rewrite ES.
    match goal with |- context [ploop k cf la cb fl us ?o' ?y' ?d' ?l'] =>
      destruct (IH k cf la cb fl o' y' d' l' HA2 Hfl Hcb HB ltac:(split; reflexivity) Hla ltac:(lia)) as (segs & last' & K1 & K2 & K3) end.
    rewrite K1. exists (seg :: segs), last'. split; [rewrite <- app_assoc; reflexivity|].
    destruct (said_segment _ a o (mkrange (y_off y) (at_byte (y_off y) lines (a_consumed a))) HY HE) as (G1 & G2 & G3). fold seg in G1, G2, G3.
    split; [constructor; [exact G1|exact K2]|]. cbn [filter map]. rewrite G3. cbn [map]. rewrite G2, K3. reflexivity.
  - destruct k as [|k]; [lia|].
    destruct (empty_round cf la fl y g us HW Hbq Hq (Hla _)) as (p & lines & a & uu & E & ES & HY & HE & HF).
    set (inp := g ++ B ";" ++ us) in *. assert (HI : List.length us < List.length inp) by (unfold inp; rewrite !app_length; cbn; lia).
    cbn [ploop]. rewrite E. pose proof (round_ok _ _ _ _ _ _ _ _ _ (start_entry fl) E) as [F1 F2 F3 F4 F5].
    assert (HN' : inp <> []) by (intros K; rewrite K in HI; cbn in HI; lia). specialize (F2 HN').
    destruct (Nat.eqb_spec (a_consumed a) 0) as [E0|E0]; [lia|].
    rewrite at_byte_some by exact F5. cbv zeta. match goal with |- context [make_segment ?x1 ?x2 ?x3 ?x4 ?x5 ?x6] => set (seg := make_segment x1 x2 x3 x4 x5 x6) end.
    rewrite Hcb. cbn [Z.ltb Z.compare]. rewrite HF. rewrite Hfl. cbn [orb]. 
    assert (HB : bq_ok us) by (rewrite <- ES; apply bq_ok_skipn, Hbq). rewrite ES.
    match goal with |- context [ploop k cf la cb fl us ?o' ?y' ?d' ?l'] =>
      destruct (IH k cf la cb fl o' y' d' l' HA Hfl Hcb HB ltac:(split; reflexivity) Hla ltac:(lia)) as (segs & last' & K1 & K2 & K3) end.
    rewrite K1. exists (seg :: segs), last'. split; [rewrite <- app_assoc; reflexivity|].
    destruct (silent_segment a o (mkrange (y_off y) (at_byte (y_off y) lines (a_consumed a))) HY HE) as (G1 & G2 & G3). fold seg in G1, G2, G3.
    split; [constructor; [exact G1|exact K2]|]. cbn [filter map]. rewrite G3. exact K3.
Qed.
Lemma script_parse : forall cf la cb fl ss u, prints_script ss u -> Forall (allowed fl) ss -> no_newline_in_names u -> (forall s p, List.length s <= la s p) ->
  pf_single fl = false -> (forall segs, cb segs = 0%Z) ->
  exists segs last, parse_each cf la cb fl u = PRet 0 segs last /\ Forall clean segs /\
    map terms_of (filter has_directive segs) = map (fun s => [entry_term s]) ss.
Proof.
  intros cf la cb fl ss u HP HA HN Hla Hfl Hcb. rewrite parse_each_eq.
  apply (script_loop ss u HP _ cf la cb fl (cf_ordinal cf) (carry0 cf) [] None HA Hfl Hcb (bq_of _ HN) (quiet_0 cf) Hla). lia.
Qed.
Lemma merged : forall segs r, Forall clean segs ->
  pr_errors (fold_left merge_segment segs r) = pr_errors r /\
  exists ns, pr_roots (fold_left merge_segment segs r) = pr_roots r ++ ns /\
    pr_directives (fold_left merge_segment segs r) = pr_directives r ++ map nid ns /\
    map (fun n => [term_of n]) ns = map terms_of (filter has_directive segs).
Proof.
  induction segs as [|s segs IH]; intros r HC; cbn [fold_left].
  - split; [reflexivity|]. exists []. cbn. rewrite !app_nil_r. auto.
  - inversion HC as [|? ? (C1 & C2 & L1) HC']; subst.
    destruct (IH (merge_segment r s) HC') as (I1 & ns & I2 & I3 & I4). rewrite I1, I2, I3. cbn [merge_segment pr_errors pr_roots pr_directives].
    rewrite C1, app_nil_r. split; [reflexivity|]. exists (s_roots s ++ ns). rewrite C2, map_app, map_app, <- !app_assoc, I4.
    cbn [filter]. unfold has_directive at 2, terms_of at 2. rewrite C2.
    destruct (s_roots s) as [|n0 [|n1 l]] eqn:ER; cbn in L1; [| |lia]; cbn; auto. unfold terms_of at 1. rewrite ER. auto.
Qed.
Lemma map_single : forall {A} (l l' : list A), map (fun x => [x]) l = map (fun x => [x]) l' -> l = l'.
Proof. induction l as [|x l IH]; intros [|y l'] H; try discriminate; [reflexivity|]. injection H as -> H. f_equal. apply IH, H. Qed.
Lemma script_parse_all : forall cf la fl ss u, prints_script ss u -> Forall (allowed fl) ss -> no_newline_in_names u -> (forall s p, List.length s <= la s p) ->
  pf_single fl = false ->
  exists r last, parse_all cf la fl u = ARes r last /\ pr_errors r = [] /\ map term_of (pr_roots r) = map entry_term ss /\
    pr_directives r = map nid (pr_roots r).
Proof.
  intros cf la fl ss u HP HA HN Hla Hfl. 
  destruct (script_parse cf la never fl ss u HP HA HN Hla Hfl (fun _ => eq_refl)) as (segs & last & K1 & K2 & K3).
  unfold parse_all. fold never. rewrite K1. eexists _, last. split; [reflexivity|].
  destruct (merged segs result0 K2) as (M1 & ns & M2 & M3 & M4). rewrite M1, M2, M3. cbn. split; [reflexivity|]. split; [|reflexivity].
  apply map_single. rewrite !map_map. rewrite M4. exact K3.
Qed.
Lemma script_single : forall cf la cb fl g s u R, allowed fl s -> white g -> prints_entry s u -> no_newline_in_names (g ++ u ++ R) ->
  (forall s p, List.length s <= la s p) -> pf_single fl = true -> (forall segs, cb segs = 0%Z) ->
  exists seg root en, parse_each cf la cb fl (g ++ u ++ R) = PRet 0 [seg] (Some en) /\ s_errors seg = [] /\ s_roots seg = [root] /\
    s_directive seg = Some (nid root) /\ s_eof seg = false /\ term_of root = entry_term s.
Proof.
  intros cf la cb fl g s u R HA HW HS HN Hla Hfl Hcb. rewrite parse_each_eq.
  destruct (entry_round cf la fl (carry0 cf) s g u R HA HW HS (bq_of _ HN) (quiet_0 cf) (Hla _)) as (p & lines & a & uu & E & ES & HY & HE & HF).
  pose proof (entry_nonempty _ _ HS) as HU. set (inp := g ++ u ++ R) in *.
  cbn [ploop]. rewrite E. pose proof (round_ok _ _ _ _ _ _ _ _ _ (start_entry fl) E) as [F1 F2 F3 F4 F5].
  assert (HN' : inp <> []) by (unfold inp; destruct g; [destruct u; [cbn in HU; lia|discriminate]|discriminate]). specialize (F2 HN').
  destruct (Nat.eqb_spec (a_consumed a) 0) as [E0|E0]; [lia|].
  rewrite at_byte_some by exact F5. cbv zeta. match goal with |- context [make_segment ?x1 ?x2 ?x3 ?x4 ?x5 ?x6] => set (seg := make_segment x1 x2 x3 x4 x5 x6) end.
  rewrite Hcb. cbn [Z.ltb Z.compare]. rewrite HF, Hfl. cbn [orb app].
  destruct (said_segment _ a (cf_ordinal cf) (mkrange (y_off (carry0 cf)) (at_byte (y_off (carry0 cf)) lines (a_consumed a))) HY HE) as ((G1 & G4 & G5) & G2 & G3). fold seg in G1, G2, G3, G4, G5.
  unfold terms_of in G2. destruct (s_roots seg) as [|root [|? ?]] eqn:ER; try discriminate. injection G2 as G2.
  exists seg, root. eexists. split; [reflexivity|]. repeat split; auto.
  unfold seg, make_segment. destruct (set_ordinals_all _ _). exact HF.
Qed.
