(** * What the rules of a statement take, and whole parses *)
From Coq Require Import List Bool Arith Ascii String ZArith Lia Permutation.
From Verif Require Import Peg PegProofs PegThunks QuickModel QuickSpec QuickProofs CypherSyntax CypherGrammar OperModel ErrModel
  CypherMatch AstTypes AstModel CypherBuild CypherExec CypherParse CypherRun CypherRound CypherLoop CypherInv CypherChain CypherSpec SafeSpec
  NodeFacts NodeHeld FlowSound FlowRun SafeProofs SkipProofs TraceSpec TraceProofs LexSpec LexProofs TermSpec Forward ForwardExec ForwardLex
  ForwardStep ForwardAtom ForwardExpr ForwardName ForwardNum ForwardPat ForwardForm ExprSpec ForwardPrint StmtSpec ForwardStmt ForwardClause
  ForwardItem ForwardPattern ForwardQuery ForwardCall ForwardQueries ForwardOption ForwardTop ForwardReturn.
Import ListNotations.
Open Scope peg_scope.
Opaque parse_one cfuel.
Strategy expand [crun].

(** what follows the options, and what follows the hints of a query *)
Definition w_body : list bytes := B "USING PERIODIC " :: B "DROP " :: clause_words.
Definition w_start : list bytes := B "EXPLAIN " :: B "PROFILE " :: B "CYPHER " :: w_body.

Lemma start_gap : forall R, begins w_start R -> gapfree R.
Proof.
  intros R (w & R' & H & ->). unfold w_start, w_body, clause_words in H. cbn [In] in H.
  repeat (destruct H as [<-|H]; [gapchar|]); contradiction.
Qed.

(** ** A statement does not begin with a setting *)
Definition opens (u : bytes) : Prop := exists c r, u = c :: r /\ ~ In c [" "; "009"; "010"; "013"; "/"; "="]%char.
Lemma opens_app : forall u R, opens u -> opens (u ++ R).
Proof. intros u R (c & r & -> & H). exists c, (r ++ R). auto. Qed.
Lemma opens_free : forall w u, In w free_words -> opens u -> free (w ++ u).
Proof.
  intros w u HW (c & r & -> & H). exists w, c, r. split; [exact HW|]. split; [reflexivity|].
  split; [intros ->; apply H; cbn; tauto|]. left. exists c, r. split; [reflexivity|]. intros K. apply H. cbn in K |- *. tauto.
Qed.
Ltac char_ := eexists; eexists; split; [reflexivity|cbn [In]; intuition discriminate].
Lemma open_ex : forall k e u, prints k e u -> opens u.
Proof.
  intros k e u H. destruct (print_first k e u H) as (c & r & -> & HC). exists c, r. split; [reflexivity|].
  cbn in HC. repeat (destruct HC as [<-|HC]; [cbn [In]; intuition discriminate|]). contradiction.
Qed.
Lemma open_list_of : forall A (P : A -> bytes -> Prop) xs u, (forall x v, P x v -> opens v) -> listed P xs u -> opens u.
Proof. intros A P xs u H HL. destruct HL as [x v xs us HP _]. apply opens_app, (H x v HP). Qed.
Lemma open_projs : forall A (P : A -> bytes -> Prop) star ps u, (forall x v, P x v -> opens v) -> prints_projs P star ps u -> opens u.
Proof. intros A P star ps u H HL. destruct HL as [ps u _|ps u HL]; [char_|eapply open_list_of; eassumption]. Qed.
Lemma open_part : forall p u, prints_part p u -> opens u.
Proof.
  intros p u H. destruct H as [x s n ls ux u HX HP]. destruct HX as [|x v (v' & HN & ->)].
  - destruct s; cbn [shape_head app]; try char_. destruct HP as [n ls un us HN _]. destruct HN. rewrite <- ?app_assoc. char_.
  - destruct HN. unfold name_text. char_.
Qed.
Lemma open_pattern : forall ps u, prints_pattern ps u -> opens u.
Proof. intros ps u (u' & H & ->). apply opens_app. eapply open_list_of; [exact open_part|exact H]. Qed.
Ltac free_ w := rewrite <- ?app_assoc; apply (opens_free w); [unfold free_words, clause_words; cbn [app]; in_|].
Lemma clause_free : forall c u R, prints_clause c u -> opens R -> free (u ++ R).
Proof.
  intros c u R H HR. destruct H.
  - destruct o; [apply (opens_free (B "OPTIONAL ") (B "MATCH " ++ _)); [unfold free_words, clause_words; cbn [app]; in_|char_]|].
    free_ (B "MATCH "). apply opens_app. eapply open_pattern. eassumption.
  - free_ (B "START "). apply opens_app. eapply open_list_of; [|eassumption]. intros p v []. unfold name_text. char_.
  - free_ (B "RETURN "). destruct d; [char_|]. cbn [distinct_text app]. apply opens_app. eapply open_projs; [|eassumption].
    intros p v [e x v' HE _|v' v'' HE|e x HE _ _]; [apply opens_app| |]; eapply open_ex; eassumption.
  - free_ (B "WITH "). destruct d; [char_|]. cbn [distinct_text app]. apply opens_app. eapply open_projs; [|eassumption].
    intros p v [e x v' vx HE _]. apply opens_app. eapply open_ex. eassumption.
  - free_ (B "UNWIND "). apply opens_app. eapply open_ex. eassumption.
  - free_ (B "MERGE "). apply opens_app. eapply open_part. eassumption.
  - destruct q; [apply (opens_free (B "CREATE ") (B "UNIQUE " ++ _)); [unfold free_words, clause_words; cbn [app]; in_|char_]|].
    free_ (B "CREATE "). apply opens_app. eapply open_pattern. eassumption.
  - free_ (B "SET "). apply opens_app. eapply open_list_of; [|eassumption]. intros p v []; unfold name_text; char_.
  - destruct d; [apply (opens_free (B "DETACH ") (B "DELETE " ++ _)); [unfold free_words, clause_words; cbn [app]; in_|char_]|].
    free_ (B "DELETE "). apply opens_app. eapply open_list_of; [|eassumption]. intros p v HE. eapply open_ex. eassumption.
  - free_ (B "REMOVE "). apply opens_app. eapply open_list_of; [|eassumption]. intros p v []; unfold name_text; char_.
  - apply (opens_free (B "FOREACH ") (B "( " ++ _)); [unfold free_words, clause_words; cbn [app]; in_|char_].
  - free_ (B "CALL "). unfold name_text. char_.
  - free_ (B "CALL "). unfold name_text. char_.
  - destruct h; apply (opens_free (B "LOAD ") (B "CSV " ++ _)); [unfold free_words, clause_words; cbn [app]; in_|char_|unfold free_words, clause_words; cbn [app]; in_|char_].
  - destruct all; [apply (opens_free (B "UNION ") (B "ALL " ++ _)); [unfold free_words, clause_words; cbn [app]; in_|char_]|].
    free_ (B "UNION "). exact HR.
Qed.
Lemma begins_opens : forall u, begins w_start u -> opens u.
Proof.
  intros u (w & R' & H & ->). unfold w_start, w_body, clause_words in H. cbn [In] in H.
  repeat (destruct H as [<-|H]; [char_|]); contradiction.
Qed.
Lemma clauses_free : forall cs us R, prints_clauses cs us -> opens R -> free (us ++ R).
Proof.
  intros cs us R H HR. destruct H as [c u H|c u cs us H HS]; [apply (clause_free c); assumption|]. rewrite <- app_assoc.
  apply (clause_free c); [exact H|]. apply opens_app. destruct HS as [c' u' H'|c' u' cs us H' _]; [|apply opens_app].
  all: apply begins_opens; eapply begins_more; [eapply clause_begins; exact H'|intros w Hw; do 5 right; exact Hw].
Qed.

Definition is_hint (t : term) : bool := Bool.eqb (term_is t T_QUERY_OPTION) true.
Definition query_tree (ts ts' : list term) : term :=
  T T_QUERY [TList (take_while is_hint (ts ++ ts' ++ [])); TList (drop_while is_hint (ts ++ ts' ++ []))].
Lemma query_shape : forall hs cs, body_term (Query hs cs) = query_tree (map hint_term hs) (map clause_term cs).
Proof.
  intros hs cs. cbn [body_term]. unfold query_tree. rewrite app_nil_r.
  assert (K : take_while is_hint (map hint_term hs ++ map clause_term cs) = map hint_term hs /\ drop_while is_hint (map hint_term hs ++ map clause_term cs) = map clause_term cs).
  { induction hs as [|h hs [IH1 IH2]]; cbn [map app take_while drop_while].
    - destruct cs as [|c cs]; [split; reflexivity|]. assert (E : is_hint (clause_term c) = false) by (destruct c; reflexivity).
      cbn [map take_while drop_while]. rewrite E. auto.
    - change (is_hint (hint_term h)) with true. cbv iota. rewrite IH1, IH2. auto. }
  destruct K as [-> ->]. reflexivity.
Qed.

Ltac dead_ := repeat (apply Forall_cons; [split; [discriminate|intros; eexists; eexists; split; [run_fail|split; [reflexivity|repeat (apply Forall_cons; [split; [cbn; intuition discriminate|eexists; reflexivity]|]); apply Forall_nil]]]|]); apply Forall_nil.

Ltac no_rest_ := change (B ";" ++ []) with (B ";") in *; change (B ") ;" ++ []) with (B ") ;") in *; change (B "IS UNIQUE ;" ++ []) with (B "IS UNIQUE ;") in *.

Section Statement.
Variables (col : coloring) (off : position) (inp : bytes).
Notation runc := (run CG (get_of inp) (cprun col off)).
Notation cst := (pst action cuser).
Notation performs := (performs inp).
Notation takes := (takes col off inp).
Notation refuses := (refuses col off inp).
Notation element := (element col off inp).

Ltac option_of t kw c R' :=
  eapply (take_of col off inp (many [] R') (effs []) (tight nofact) 60 _ (map Kn kw ++ [Ho 9 c]) t);
  [run_trun|reflexivity| |apply grow_ok; [reflexivity|run_grow]|nrm_; reflexivity|nrm_; reflexivity].
Lemma take_option : forall o R t, good_option o -> free R -> takes t (PRule R_statement_option) (option_text o) R (HGrow 1 [] [option_term o]).
Proof.
  intros o R t HO HF. pose proof (free_gap R HF) as HG. destruct o as [| |v ps]; [| |apply take_cypher; assumption]; open_gap R HG.
  - option_of t (B "EXPLAIN ") c R'. hole_ fail.
  - option_of t (B "PROFILE ") c R'. hole_ fail.
Qed.
Lemma option_begins : forall o, good_option o -> begins w_start (option_text o).
Proof.
  intros [| |v ps] HO; [eexists (B "EXPLAIN "), []; split; [in_|reflexivity]|eexists (B "PROFILE "), []; split; [in_|reflexivity]|].
  cbn [option_text]. destruct v as [v|]; [|destruct ps as [|p ps]]; (eexists (B "CYPHER "), _; split; [in_|reflexivity]).
Qed.
Lemma option_free : forall o R, good_option o -> opens R -> free (option_text o ++ R).
Proof.
  intros [| |v ps] R HO HR; [free_ (B "EXPLAIN "); exact HR|free_ (B "PROFILE "); exact HR|]. destruct HO as [HV HP]. cbn [option_text].
  destruct v as [[a b]|]; [|destruct ps as [|p ps]].
  - apply (opens_free (B "CYPHER ")
      ((version_text (a, b) ++ flat_map (fun p => B " " ++ setting_text p) ps ++ B " ") ++ R)); [unfold free_words; cbn [app]; in_|].
    apply opens_app, opens_app. unfold version_text. cbn [fst snd]. apply opens_app. destruct HV as [[HN HD] _].
    destruct a as [|d ds]; [contradiction|]. specialize (HD d (or_introl eq_refl)). exists d, ds. split; [reflexivity|].
    clear - HD. cbn in HD. repeat (destruct HD as [<-|HD]; [cbn [In]; intuition discriminate|]). contradiction.
  - free_ (B "CYPHER "). exact HR.
  - apply (opens_free (B "CYPHER ")
      (((setting_text p ++ flat_map (fun p => B " " ++ setting_text p) ps) ++ B " ") ++ R)); [unfold free_words; cbn [app]; in_|].
    apply opens_app, opens_app, opens_app. destruct (HP p (or_introl eq_refl)) as [(c & n & E & HC & _) _]. unfold setting_text. rewrite E.
    exists c, (n ++ B " = " ++ snd p). split; [reflexivity|].
    clear - HC. cbn in HC. repeat (destruct HC as [<-|HC]; [cbn [In]; intuition discriminate|]). contradiction.
Qed.
Lemma take_options : forall os uo R, chained prints_option os uo -> begins w_body R -> free R -> forall t,
  takes t (PStar (PRule R_statement_option)) uo R (HGrow 1 [] (map option_term os)).
Proof.
  intros os uo R H HB HF. induction H as [|o u os us HP H IH]; intros t.
  - apply star_none. eapply refuse_at; [|exact HB]. stop_.
  - apply (star_more col off inp t _ u us R 1 [] [option_term o] _); [|apply IH].
    destruct HP as [o HO]. apply take_option; [exact HO|]. clear IH. destruct H as [|o' u' os us HP' H]; [exact HF|].
    destruct HP' as [o' HO']. rewrite <- app_assoc. apply option_free; [exact HO'|].
    destruct H as [|o2 u2 os us [o3 HO3] H]; [apply begins_opens; eapply begins_more; [exact HB|i_]|].
    rewrite <- app_assoc. apply opens_app, begins_opens, option_begins, HO3.
Qed.
Lemma options_start : forall os uo R, chained prints_option os uo -> begins w_body R -> begins w_start (uo ++ R).
Proof.
  intros os uo R H HB. destruct H as [|o u os us [o' HO] H]; [eapply begins_more; [exact HB|i_]|].
  rewrite <- app_assoc. apply begins_app, option_begins, HO.
Qed.
Lemma take_hint : forall v u R t, prints_hint v u -> begins (B "USING PERIODIC " :: clause_words) R -> takes t (PRule R_query_hints) u R (HGrow 1 [] [hint_term v]).
Proof.
  intros v u R t HP HB. destruct HP as [v u HP].
  assert (HG : gapfree R) by (apply start_gap; eapply begins_more; [exact HB|intros w [<-|H]; [in_|do 5 right; exact H]]).
  destruct HP as [|v HV].
  - assert (N : forall t, refuses t (PRule R_integer_literal) R) by (eapply refuse_at; [|exact HB]; stop_). open_gap R HG.
    eapply (take_of col off inp (many [] R') (effs []) (fact_tab [(R_integer_literal, [9], FFail)] []) 60 _ (map Kn (B "USING PERIODIC COMMIT ") ++ [Ho 9 c]) t);
      [run_trun|reflexivity| |apply grow_ok; [reflexivity|run_grow]|nrm_; reflexivity|nrm_; reflexivity]. hole_ ltac:(apply N).
  - pose proof (fun t => take_integer col off inp t v R HV HG) as H1.
    open_ (v ++ B " " ++ R) c1 r1 E1 K1; [apply digits_gapfree, HV|]. open_gap R HG.
    eapply (take_of col off inp (many [[]; r1] R') (effs [HNone; HNode (named T_INTEGER v)]) (fact_tab [(R_integer_literal, [1], FTake 1 [Ho 9 c])] []) 60 _ (map Kn (B "USING PERIODIC COMMIT ") ++ [Ho 1 c1]) t);
      [run_trun|reflexivity| |apply grow_ok; [reflexivity|run_grow]|nrm_; reflexivity|nrm_; reflexivity]. hole_ ltac:(apply H1).
Qed.
Lemma take_hints : forall hs uh R, chained prints_hint hs uh -> begins clause_words R -> forall t,
  takes t (PStar (PRule R_query_hints)) uh R (HGrow 1 [] (map hint_term hs)).
Proof.
  intros hs uh R H HB. induction H as [|v u hs us HP H IH]; intros t.
  - apply star_none. eapply refuse_at; [|exact HB]. stop_.
  - apply (star_more col off inp t _ u us R 1 [] [hint_term v] _); [|apply IH].
    apply take_hint; [exact HP|]. destruct H as [|v' u' hs us HP' H]; [eapply begins_more; [exact HB|i_]|].
    destruct HP' as [v' u' _]. rewrite <- !app_assoc. exists (B "USING PERIODIC "), (B "COMMIT " ++ u' ++ us ++ R). split; [in_|reflexivity].
Qed.
Ltac query_of R' w r1 r2 r3 c1 c2 c3 ts0 ts1 ts2 t :=
  eapply (take_of col off inp (many [[]; r1; r2; r3] R') (effs [HNone; HGrow 1 [] ts0; HGrow 1 [] ts1; HGrow 1 [] ts2])
    (fact_tab [(R_clauses, [3], FTake 3 w)] [([1], FTake 1 [Ho 2 c2]); ([2], FTake 2 [Ho 3 c3])]) 60 _ [Ho 1 c1] t);
  [run_trun|reflexivity| |apply node_ok; run_node|nrm_; reflexivity|nrm_; reflexivity].
Lemma take_query : forall os hs cs uo uh us R t, chained prints_option os uo -> chained prints_hint hs uh -> prints_clauses cs us ->
  takes t (PRule R_cypher_statement) (uo ++ (uh ++ us) ++ B ";") R (HNode (stmt_term (mkstmt os (Query hs cs)))).
Proof.
  intros os hs cs uo uh us R t HO HH HC. destruct (proj2 (clauses_all col off inp) cs us HC) as (_ & HW & _).
  pose proof (fun t => take_clauses col off inp cs us R t HC) as H2.
  assert (HB : begins clause_words (us ++ B ";" ++ R)) by (apply begins_app, HW).
  pose proof (take_hints hs uh _ HH HB) as H1.
  assert (HU : begins w_body (uh ++ us)).
  { destruct HH as [|v u hs uh [v' u' _] _]; [eapply begins_more; [exact HW|i_]|].
    exists (B "USING PERIODIC "), (B "COMMIT " ++ u' ++ uh ++ us). split; [in_|]. rewrite <- !app_assoc. reflexivity. }
  assert (HU' : begins w_body (uh ++ us ++ B ";" ++ R)) by (rewrite app_assoc; apply begins_app, HU).
  assert (HF : free (uh ++ us ++ B ";" ++ R)).
  { destruct HH as [|v u hs uh [v' u' _] _]; [cbn [app]; apply (clauses_free cs us); [exact HC|char_]|].
    rewrite <- !app_assoc. apply (opens_free (B "USING ") (B "PERIODIC COMMIT " ++ _)); [unfold free_words; cbn [app]; in_|char_]. }
  pose proof (take_options os uo _ HO HU' HF) as H0. pose proof (options_start os uo _ HO HU') as HS.
  unfold stmt_term. cbn [s_opts s_body]. rewrite query_shape. rewrite <- (app_nil_r (map option_term os)).
  generalize dependent (map hint_term hs). intros ts1 H1. generalize dependent (map clause_term cs). intros ts2 H2.
  generalize dependent (map option_term os). intros ts0 H0.
  open_ (us ++ B ";" ++ R) c3 r3 E3 K3; [apply start_gap; eapply begins_more; [exact HB|i_]|].
  open_ (uh ++ us ++ B ";" ++ R) c2 r2 E2 K2; [apply start_gap; eapply begins_more; [exact HU'|i_]|].
  open_ (uo ++ uh ++ us ++ B ";" ++ R) c1 r1 E1 K1; [apply start_gap, HS|].
  destruct R as [|c9 R'].
  - no_rest_. query_of (@nil ascii) (@nil tok) r1 r2 r3 c1 c2 c3 ts0 ts1 ts2 t. hole_ ltac:(first [apply H0|apply H1|apply H2]).
  - cbn [B list_ascii_of_string app] in E1, E2, E3. query_of R' [Ho 9 c9] r1 r2 r3 c1 c2 c3 ts0 ts1 ts2 t. hole_ ltac:(first [apply H0|apply H1|apply H2]).
Qed.

(** ** Schema commands *)
Lemma name_element : element R_prop_name prints_name (named T_PROP_NAME) (begins w_item).
Proof.
  intros x u R HP HB. destruct HP as [x HX]. split; [discriminate|]. split; [apply name_gapfree|]. intros t.
  apply take_prop_name; [exact HX|]. exact (closer_gapfree _ (begins_closer _ HB)).
Qed.
Definition schema_words : list bytes := [B "CREATE INDEX ON "; B "DROP INDEX ON "; B "CREATE CONSTRAINT ON "; B "DROP CONSTRAINT ON "].
Lemma no_query : forall R, begins schema_words R -> forall t, refuses t (PRule R_query) R.
Proof. intros R HB. eapply refuse_end; [|exact HB]. unfold schema_words. dead_. Qed.
Ltac schema_of R' w r1 r2 c1 c2 ts0 tm t :=
  eapply (take_of col off inp (many [[]; r1; r2] R') (effs [HNone; HGrow 1 [] ts0; HNode tm])
    (fact_tab [(R_query, [2], FFail); (R_schema_command, [2], FTake 2 w)] [([1], FTake 1 [Ho 2 c2])]) 60 _ [Ho 1 c1] t);
  [run_trun|reflexivity| |apply node_ok; run_node|nrm_; reflexivity|nrm_; reflexivity].
Lemma take_schema : forall os b uo ub R t, chained prints_option os uo -> begins schema_words ub -> gapfree ub ->
  (forall t, takes t (PRule R_schema_command) (ub ++ B ";") R (HNode (body_term b))) ->
  takes t (PRule R_cypher_statement) (uo ++ ub ++ B ";") R (HNode (stmt_term (mkstmt os b))).
Proof.
  intros os b uo ub R t HO HB HG H2.
  assert (HU : begins w_body (ub ++ B ";" ++ R)).
  { apply begins_app. destruct HB as (w & r & H & ->). cbn [schema_words In] in H.
    repeat (destruct H as [<-|H]; [first [eexists (B "CREATE "), _; split; [in_|reflexivity]|eexists (B "DROP "), _; split; [in_|reflexivity]]|]); contradiction. }
  pose proof (no_query _ (begins_app _ _ (B ";" ++ R) HB)) as N.
  assert (HF : free (ub ++ B ";" ++ R)).
  { destruct HB as (w & r & H & ->). cbn [schema_words In] in H.
    repeat (destruct H as [<-|H]; [first [apply (opens_free (B "CREATE ") (B "INDEX " ++ _)); [unfold free_words, clause_words; cbn [app]; in_|char_]
      |apply (opens_free (B "CREATE ") (B "CONSTRAINT " ++ _)); [unfold free_words, clause_words; cbn [app]; in_|char_]
      |apply (opens_free (B "DROP ") (B "INDEX " ++ _)); [unfold free_words; cbn [app]; in_|char_]
      |apply (opens_free (B "DROP ") (B "CONSTRAINT " ++ _)); [unfold free_words; cbn [app]; in_|char_]]|]); contradiction. }
  pose proof (take_options os uo _ HO HU HF) as H0. pose proof (options_start os uo _ HO HU) as HS.
  unfold stmt_term. cbn [s_opts s_body]. rewrite <- (app_nil_r (map option_term os)).
  generalize dependent (body_term b). intros tm H2. generalize dependent (map option_term os). intros ts0 H0.
  open_ (ub ++ B ";" ++ R) c2 r2 E2 K2; [apply start_gap; eapply begins_more; [exact HU|i_]|].
  open_ (uo ++ ub ++ B ";" ++ R) c1 r1 E1 K1; [apply start_gap, HS|].
  destruct R as [|c9 R'].
  - no_rest_. schema_of (@nil ascii) (@nil tok) r1 r2 c1 c2 ts0 tm t. hole_ ltac:(first [apply H0|apply N|apply H2]).
  - cbn [B list_ascii_of_string app] in E1, E2. schema_of R' [Ho 9 c9] r1 r2 c1 c2 ts0 tm t. hole_ ltac:(first [apply H0|apply N|apply H2]).
Qed.
Ltac index_of kw R' w r5 c5 l x' ts t :=
  eapply (take_of col off inp (many [[]; B " " ++ name_text l ++ B "( " ++ name_text x' ++ c5 :: r5; x' ++ B "` " ++ c5 :: r5; []; []; r5] R')
      (effs [HNone; HNode (named T_LABEL l); HNode (named T_PROP_NAME x'); HNone; HNone; HGrow 2 [1] ts])
      (fact_tab [(R_label, [1], FTake 1 (map Kn (B "( ") ++ [Ho 2 "`"%char])); (R_prop_name, [2], FTake 2 [Ho 5 c5])] [([5], FTake 5 (map Kn (B ") ;") ++ w))]) 60 _
      (map Kn kw ++ [Ho 1 ":"%char]) t);
    [run_trun|reflexivity| |apply node_ok; run_node|nrm_; reflexivity|nrm_; reflexivity].
Lemma take_index : forall c l ps us R t, plain_name l -> listed prints_name ps us ->
  takes t (PRule R_schema_command) ((verb c ++ B "INDEX ON : " ++ name_text l ++ B "( " ++ us ++ B ") ") ++ B ";") R (HNode (body_term (Index c l ps))).
Proof.
  intros c l ps us R t HL HP.
  pose proof (fun R t => take_label col off inp t l (B "( " ++ R) HL ltac:(gapchar)) as H0.
  destruct HP as [x u ps us [x' HX] HC].
  assert (HB : begins w_item (B ") ;" ++ R)) by (exists (B ")"), (B " ;" ++ R); split; [in_|reflexivity]).
  assert (HO : begins w_item (us ++ B ") ;" ++ R)).
  { destruct HC as [|y uy ys uys _ _]; [exact HB|]. exists (B ","), (B " " ++ uy ++ uys ++ B ") ;" ++ R). split; [in_|]. rewrite <- !app_assoc. reflexivity. }
  pose proof (closer_gapfree _ (begins_closer _ HO)) as HG.
  pose proof (fun t => take_prop_name col off inp t x' _ HX HG) as H1.
  assert (H2 : forall t, takes t (PStar (comma_of 1 R_prop_name)) us (B ") ;" ++ R) (HGrow 2 [1] (map (named T_PROP_NAME) ps))).
  { eapply (commas_take col off inp); [in_|exact name_element| |exact HC|exact HB|discriminate|].
    - intros R'. exists (B ","), (B " " ++ R'). split; [in_|reflexivity].
    - apply (refuse_at col off inp R_COMMA [B ")"]); [stop_|exists (B ")"), (B " ;" ++ R); split; [in_|reflexivity]]. }
  cbn [body_term map]. rewrite <- (app_nil_r (map (named T_PROP_NAME) ps)). generalize dependent (map (named T_PROP_NAME) ps). intros ts H2.
  open_ (us ++ B ") ;" ++ R) c5 r5 E5 K5; [exact HG|].
  destruct R as [|c9 R'].
  - no_rest_. destruct c; cbn [verb];
      [index_of (B "CREATE INDEX ON ") (@nil ascii) (@nil tok) r5 c5 l x' ts t|index_of (B "DROP INDEX ON ") (@nil ascii) (@nil tok) r5 c5 l x' ts t];
      hole_ ltac:(first [apply H0|apply H1|apply H2]).
  - cbn [B list_ascii_of_string app] in E5. destruct c; cbn [verb];
      [index_of (B "CREATE INDEX ON ") R' [Ho 9 c9] r5 c5 l x' ts t|index_of (B "DROP INDEX ON ") R' [Ho 9 c9] r5 c5 l x' ts t];
      hole_ ltac:(first [apply H0|apply H1|apply H2]).
Qed.
Ltac constraint_of t kw r lab x l mid c3 r3 tail R' w e :=
  eapply (take_of col off inp (many [[]; x ++ B "` : " ++ name_text l ++ mid ++ c3 :: r3; B " " ++ name_text l ++ mid ++ c3 :: r3; r3] R')
    (effs [HNone; HNode (named T_IDENTIFIER x); HNode (named lab l); HNode (ex_term e)])
    (fact_tab [(R_identifier, [1], FTake 1 [Ho 2 ":"%char]); (r, [2], FTake 2 (map Kn mid ++ [Ho 3 c3])); (R_expression, [3], FTake 3 (map Kn tail ++ w))] []) 60 _ (map Kn kw ++ [Ho 1 "`"%char]) t);
  [run_trun|reflexivity| |apply node_ok; run_node|nrm_; reflexivity|nrm_; reflexivity].
Lemma take_constraint : forall c w x e q uw u R t, prints_on w x uw -> prints 0 e u -> (q = true -> exists l, w = OnNode l) ->
  takes t (PRule R_schema_command) ((verb c ++ B "CONSTRAINT ON " ++ uw ++ B "ASSERT " ++ u ++ (if q then B "IS UNIQUE " else [])) ++ B ";") R
    (HNode (body_term (Constraint c w x e q))).
Proof.
  intros c w x e q uw u R t HW HE HQ.
  destruct HW as [l x HL HX|a b l x HL HX].
  - clear HQ. pose proof (fun R t => take_name col off inp t x (B ": " ++ R) HX ltac:(gapchar)) as H0.
    pose proof (fun R t => take_label col off inp t l (B ") ASSERT " ++ R) HL ltac:(gapchar)) as H1.
    destruct q.
    + pose proof (fun t => take_ex col off inp e u (B "IS UNIQUE ;" ++ R) t HE ltac:(apply (cl_word (B "IS UNIQUE ") (B ";" ++ R)); in_)) as H2.
      open_ (u ++ B "IS UNIQUE ;" ++ R) c3 r3 E3 K3; [exact (print_gapfree _ _ _ _ HE)|].
      destruct R as [|c9 R']; [no_rest_|cbn [B list_ascii_of_string app] in E3]; destruct c; cbn [verb];
      [constraint_of t (B "CREATE CONSTRAINT ON ( ") R_label T_LABEL x l (B ") ASSERT ") c3 r3 (B "IS UNIQUE ;") (@nil ascii) (@nil tok) e
      |constraint_of t (B "DROP CONSTRAINT ON ( ") R_label T_LABEL x l (B ") ASSERT ") c3 r3 (B "IS UNIQUE ;") (@nil ascii) (@nil tok) e
      |constraint_of t (B "CREATE CONSTRAINT ON ( ") R_label T_LABEL x l (B ") ASSERT ") c3 r3 (B "IS UNIQUE ;") R' [Ho 9 c9] e
      |constraint_of t (B "DROP CONSTRAINT ON ( ") R_label T_LABEL x l (B ") ASSERT ") c3 r3 (B "IS UNIQUE ;") R' [Ho 9 c9] e];
      hole_ ltac:(first [apply H0|apply H1|apply H2]).
    + pose proof (fun t => take_ex col off inp e u (B ";" ++ R) t HE ltac:(apply (cl_char ";"%char R); in_)) as H2.
      open_ (u ++ B ";" ++ R) c3 r3 E3 K3; [exact (print_gapfree _ _ _ _ HE)|].
      destruct R as [|c9 R']; [no_rest_|cbn [B list_ascii_of_string app] in E3]; destruct c; cbn [verb];
      [constraint_of t (B "CREATE CONSTRAINT ON ( ") R_label T_LABEL x l (B ") ASSERT ") c3 r3 (B ";") (@nil ascii) (@nil tok) e
      |constraint_of t (B "DROP CONSTRAINT ON ( ") R_label T_LABEL x l (B ") ASSERT ") c3 r3 (B ";") (@nil ascii) (@nil tok) e
      |constraint_of t (B "CREATE CONSTRAINT ON ( ") R_label T_LABEL x l (B ") ASSERT ") c3 r3 (B ";") R' [Ho 9 c9] e
      |constraint_of t (B "DROP CONSTRAINT ON ( ") R_label T_LABEL x l (B ") ASSERT ") c3 r3 (B ";") R' [Ho 9 c9] e];
      hole_ ltac:(first [apply H0|apply H1|apply H2]).
  - destruct q; [destruct (HQ eq_refl) as [l' HQ']; discriminate|]. clear HQ.
    pose proof (fun R t => take_name col off inp t x (B ": " ++ R) HX ltac:(gapchar)) as H0.
    pose proof (fun R t => take_type col off inp t l (B "] - " ++ R) HL ltac:(gapchar)) as H1.
    pose proof (fun t => take_ex col off inp e u (B ";" ++ R) t HE ltac:(apply (cl_char ";"%char R); in_)) as H2.
    open_ (u ++ B ";" ++ R) c3 r3 E3 K3; [exact (print_gapfree _ _ _ _ HE)|].
    destruct R as [|c9 R']; [no_rest_|cbn [B list_ascii_of_string app] in E3]; destruct a, b, c; cbn [verb].
    all: [> constraint_of t (B "CREATE CONSTRAINT ON ( ) < - [ ") R_rel_type T_RELTYPE x l (B "] - > ( ) ASSERT ") c3 r3 (B ";") (@nil ascii) (@nil tok) e
         |constraint_of t (B "DROP CONSTRAINT ON ( ) < - [ ") R_rel_type T_RELTYPE x l (B "] - > ( ) ASSERT ") c3 r3 (B ";") (@nil ascii) (@nil tok) e
         |constraint_of t (B "CREATE CONSTRAINT ON ( ) < - [ ") R_rel_type T_RELTYPE x l (B "] - ( ) ASSERT ") c3 r3 (B ";") (@nil ascii) (@nil tok) e
         |constraint_of t (B "DROP CONSTRAINT ON ( ) < - [ ") R_rel_type T_RELTYPE x l (B "] - ( ) ASSERT ") c3 r3 (B ";") (@nil ascii) (@nil tok) e
         |constraint_of t (B "CREATE CONSTRAINT ON ( ) - [ ") R_rel_type T_RELTYPE x l (B "] - > ( ) ASSERT ") c3 r3 (B ";") (@nil ascii) (@nil tok) e
         |constraint_of t (B "DROP CONSTRAINT ON ( ) - [ ") R_rel_type T_RELTYPE x l (B "] - > ( ) ASSERT ") c3 r3 (B ";") (@nil ascii) (@nil tok) e
         |constraint_of t (B "CREATE CONSTRAINT ON ( ) - [ ") R_rel_type T_RELTYPE x l (B "] - ( ) ASSERT ") c3 r3 (B ";") (@nil ascii) (@nil tok) e
         |constraint_of t (B "DROP CONSTRAINT ON ( ) - [ ") R_rel_type T_RELTYPE x l (B "] - ( ) ASSERT ") c3 r3 (B ";") (@nil ascii) (@nil tok) e
         |constraint_of t (B "CREATE CONSTRAINT ON ( ) < - [ ") R_rel_type T_RELTYPE x l (B "] - > ( ) ASSERT ") c3 r3 (B ";") R' [Ho 9 c9] e
         |constraint_of t (B "DROP CONSTRAINT ON ( ) < - [ ") R_rel_type T_RELTYPE x l (B "] - > ( ) ASSERT ") c3 r3 (B ";") R' [Ho 9 c9] e
         |constraint_of t (B "CREATE CONSTRAINT ON ( ) < - [ ") R_rel_type T_RELTYPE x l (B "] - ( ) ASSERT ") c3 r3 (B ";") R' [Ho 9 c9] e
         |constraint_of t (B "DROP CONSTRAINT ON ( ) < - [ ") R_rel_type T_RELTYPE x l (B "] - ( ) ASSERT ") c3 r3 (B ";") R' [Ho 9 c9] e
         |constraint_of t (B "CREATE CONSTRAINT ON ( ) - [ ") R_rel_type T_RELTYPE x l (B "] - > ( ) ASSERT ") c3 r3 (B ";") R' [Ho 9 c9] e
         |constraint_of t (B "DROP CONSTRAINT ON ( ) - [ ") R_rel_type T_RELTYPE x l (B "] - > ( ) ASSERT ") c3 r3 (B ";") R' [Ho 9 c9] e
         |constraint_of t (B "CREATE CONSTRAINT ON ( ) - [ ") R_rel_type T_RELTYPE x l (B "] - ( ) ASSERT ") c3 r3 (B ";") R' [Ho 9 c9] e
         |constraint_of t (B "DROP CONSTRAINT ON ( ) - [ ") R_rel_type T_RELTYPE x l (B "] - ( ) ASSERT ") c3 r3 (B ";") R' [Ho 9 c9] e].
    all: hole_ ltac:(first [apply H0|apply H1|apply H2]).
Qed.
Lemma take_statement : forall s u R t, prints_stmt s u -> begins w_start u /\ takes t (PRule R_cypher_statement) u R (HNode (stmt_term s)).
Proof.
  intros s u R t H. destruct H as [os b uo ub HO HB]. 
  assert (HS : begins w_body (ub ++ B ";")).
  { apply begins_app. destruct HB as [hs cs uh us HH HC|c l ps us _ _|c w x e q uw u _ _ _].
    - destruct HH as [|v u hs uh [v' u' _] _].
      + eapply begins_more; [apply (proj2 (clauses_all col off inp) cs us HC)|i_].
      + exists (B "USING PERIODIC "), (B "COMMIT " ++ u' ++ uh ++ us). split; [in_|]. rewrite <- !app_assoc. reflexivity.
    - destruct c; [eexists (B "CREATE "), _|eexists (B "DROP "), _]; (split; [in_|reflexivity]).
    - destruct c; [eexists (B "CREATE "), _|eexists (B "DROP "), _]; (split; [in_|reflexivity]). }
  split; [exact (options_start os uo _ HO HS)|].
  destruct HB as [hs cs uh us HH HC|c l ps us HL HP|c w x e q uw u HW HE HQ].
  - apply take_query; assumption.
  - apply take_schema; [exact HO| | |intros t'; apply take_index; assumption].
    + destruct c; [eexists (B "CREATE INDEX ON "), _|eexists (B "DROP INDEX ON "), _]; (split; [in_|reflexivity]).
    + destruct c; gapchar.
  - apply take_schema; [exact HO| | |intros t'; apply take_constraint; assumption].
    + destruct c; [eexists (B "CREATE CONSTRAINT ON "), _|eexists (B "DROP CONSTRAINT ON "), _]; (split; [in_|reflexivity]).
    + destruct c; gapchar.
Qed.
End Statement.
Lemma stmt_round : forall cf la fl y s u, prints_stmt s u -> bq_ok u -> quiet y -> (forall p, List.length u <= la u p) ->
  exists lines a us, parse_one cf la (start_rule fl) u y = RdOk (List.length u) lines a us /\
    said_by (stmt_term s) a /\ a_errs a = [] /\ a_eof a = false.
Proof.
  intros cf la fl y s u HP Hbq Hq Hla.
  pose proof (fun t => take_statement (cf_color cf) (y_off y) u s u [] t HP) as HT.
  assert (HS : begins w_start u) by apply (HT (mkt None [])).
  assert (H1 : forall t, takes (cf_color cf) (y_off y) u t (PRule R_cypher_statement) u [] (HNode (stmt_term s))) by (intros t; apply (HT t)).
  assert (N1 : forall t, refuses (cf_color cf) (y_off y) u t (PRule R_EOF) u) by (eapply refuse_at; [|exact HS]; stop_).
  assert (N2 : forall t, refuses (cf_color cf) (y_off y) u t (PRule R_SEMICOLON) u) by (eapply refuse_at; [|exact HS]; stop_).
  assert (N3 : forall t, refuses (cf_color cf) (y_off y) u t (PRule R_client_command) u) by (eapply refuse_at; [|exact HS]; stop_).
  pose proof (start_gap u HS) as HG. clear HT HS HP.
  generalize dependent (stmt_term s). intros tm H1.
  assert (HU : exists c r, u = c :: r) by (destruct HG as [(c & r & -> & _)|(r & ->)]; eauto). destruct HU as (c & r & HU).
  assert (HN : u <> []) by (rewrite HU; discriminate). assert (HG' : gapfree (c :: r)) by (rewrite <- HU; exact HG).
  assert (HE : u = text (many [[]; r] []) [Ho 1 c]) by (rewrite HU; text_; reflexivity).
  destruct fl as [sg os].
  destruct os; (eapply (round_top cf la _ u y (many [[]; r] []) (effs [HNone; HNode tm])
      (fact_tab [(R_EOF, [1], FFail); (R_SEMICOLON, [1], FFail); (R_client_command, [1], FFail); (R_cypher_statement, [1], FTake 1 [])] []) 100 [Ho 1 c]);
    [exact Hbq|exact Hq|exact HN|exact Hla|run_trun|symmetry; exact HE| |apply top_generic; run_top]).
  all: obs_ ltac:(first [eapply ob_take; [cbn [effs nth]; eapply takes_at; [apply H1|reflexivity]|text_; rewrite <- HU; rewrite ?app_nil_r; reflexivity]
                   |apply ob_refuse; text_; rewrite <- HU; first [apply N1|apply N2|apply N3]]).
Qed.
Lemma stmt_parse : forall cf la cb fl s u, prints_stmt s u ->
  no_newline_in_names u -> (forall s p, List.length s <= la s p) -> (forall segs, cb segs = 0%Z) ->
  exists seg root en, parse_each cf la cb fl u = PRet 0 [seg] (Some en) /\ s_errors seg = [] /\ s_roots seg = [root] /\
    s_directive seg = Some (nid root) /\ s_eof seg = false /\ term_of root = stmt_term s.
Proof.
  intros cf la cb fl s u HP HN Hla Hcb. apply parse_top; [|exact Hcb|].
  - destruct HP as [os b uo ub _ _]. destruct uo; destruct ub; discriminate.
  - apply stmt_round; [exact HP|apply bq_of; exact HN|apply quiet_0|intros p; apply Hla].
Qed.
Lemma stmt_parse_all : forall cf la fl s u, prints_stmt s u ->
  no_newline_in_names u -> (forall s p, List.length s <= la s p) ->
  exists r root last, parse_all cf la fl u = ARes r last /\ pr_errors r = [] /\ pr_roots r = [root] /\
    pr_directives r = [nid root] /\ term_of root = stmt_term s.
Proof.
  intros cf la fl s u HP HN Hla.
  destruct (stmt_parse cf la never fl s u HP HN Hla (fun _ => eq_refl)) as (seg & root & en & K1 & K2 & K3 & K4 & K5 & K6).
  unfold parse_all. fold never. rewrite K1. cbn [fold_left]. eexists _, root, (Some en). split; [reflexivity|].
  cbn. rewrite K2, K3, K4. auto.
Qed.
