(** * What the rules of SET, REMOVE, MERGE actions and LOAD CSV take *)
From Coq Require Import List Bool Arith Ascii String ZArith Lia Permutation.
From Verif Require Import Peg PegProofs PegThunks QuickModel QuickSpec QuickProofs CypherSyntax CypherGrammar OperModel ErrModel
  CypherMatch AstTypes AstModel CypherBuild CypherExec CypherParse CypherRun CypherRound CypherSpec
  NodeFacts NodeHeld FlowSound FlowRun SafeProofs TraceSpec TraceProofs LexSpec LexProofs TermSpec Forward ForwardExec ForwardLex
  ForwardStep ForwardAtom ForwardExpr ForwardName ForwardNum ForwardPat ForwardForm ExprSpec ForwardPrint StmtSpec ForwardStmt ForwardClause.
Import ListNotations.
Open Scope peg_scope.
Opaque parse_one cfuel.
Strategy expand [crun].

Definition dot1 : cexp := PRule R_DOT ⋅ PRule R_sp ⋅ bind 1 R_prop_name ⋅ PRule R__block_replace_ ⋅
  PAct (TDo [SLet (LVar 0) (RMk K_property_operator [AVar 0; AVar 1])]).
Definition prop_term (t0 : term) (v : bytes) : term := T T_PROPERTY_OPERATOR [TNode (Some t0); TNode (Some (named T_PROP_NAME v))].
Lemma chain_term : forall ps e, ex_term (fold_left EProp ps e) = fold_left prop_term ps (ex_term e).
Proof. induction ps as [|p ps IH]; intros e; cbn [fold_left]; [reflexivity|]. rewrite IH. reflexivity. Qed.

(** what can follow the properties *)
Definition w_prop : list bytes := B "= " :: w_item.

Lemma prop_nocall : forall R, begins w_prop R -> nocall R.
Proof.
  intros R (w & R' & [<-|H] & ->); [apply nc_char; cbn [In]; intuition discriminate|].
  apply closer_nocall, begins_closer. exists w, R'. auto.
Qed.

Section Item.
Variables (col : coloring) (off : position) (inp : bytes).
Notation runc := (run CG (get_of inp) (cprun col off)).
Notation cst := (pst action cuser).
Notation performs := (performs inp).
Notation takes := (takes col off inp).
Notation refuses := (refuses col off inp).
Notation element := (element col off inp).

Lemma take_atom : forall t x R, plain_name x -> nocall R -> takes t (PRule R_atom) (name_text x) R (HNode (named T_IDENTIFIER x)).
Proof.
  intros t v R HV HR. pose proof (nocall_gapfree R HR) as HG. open_gap R HG.
  eapply (take_of col off inp (two (v ++ ["`"%char]) R') (one_eff (HAppend v)) fact_ident 200 (PRule R_atom) [Ho 0 "`"%char; Kn " "%char; Ho 9 c] t);
    [run_trun|reflexivity| |apply node_ok; run_node|unfold name_text; text_; reflexivity|text_; reflexivity].
  obs_ ltac:(first [eapply ob_take; [cbn [one_eff]; text_; apply take_backquoted; exact HV|text_; reflexivity]
    |apply ob_refuse; text_; replace ("`"%char :: v ++ "`"%char :: " "%char :: c :: R') with (bq v ++ B " " ++ c :: R') by (unfold bq; text_; reflexivity);
     eapply no_call; [vm_compute; reflexivity|auto|exact HV|exact HR]]).
Qed.
Lemma take_dot : forall t v R, plain_name v -> gapfree R -> takes t dot1 (B ". " ++ name_text v) R (HFold 1 (fun t0 => prop_term t0 v)).
Proof.
  intros t v R HV HG. pose proof (fun t => take_prop_name col off inp t v R HV HG) as H1. open_gap R HG.
  eapply (take_of col off inp (many [[]; v ++ B "` " ++ c :: R'] R') (effs [HNone; HNode (named T_PROP_NAME v)]) (fact_tab [(R_prop_name, [], FTake 1 [Ho 9 c])] []) 100 _
    (map Kn (B ". ") ++ [Ho 1 "`"%char]) t);
    [run_trun|reflexivity| |apply fold_ok; run_fold|nrm_; reflexivity|nrm_; reflexivity].
  hole_ ltac:(apply H1).
Qed.
Lemma no_dot : forall t R, R <> [] -> refuses t (PRule R_DOT) R -> refuses t dot1 R.
Proof.
  intros t R HR H. destruct R as [|c R]; [contradiction|].
  replace (c :: R) with (text (many [] R) [Ho 9 c]) by (text_; reflexivity).
  eapply (refuse_of col off inp (many [] R) (effs []) fact_no 60); [run_fail|reflexivity|].
  obs_ ltac:(apply ob_refuse; text_; exact H).
Qed.
Lemma dots_nocall : forall ps us R, chained prints_dot ps us -> nocall R -> nocall (us ++ R).
Proof.
  intros ps us R H HR. induction H as [|x u xs us HP H IH]; [exact HR|]. destruct HP as [x HX]. unfold name_text.
  replace (((B ". " ++ B "`" ++ x ++ B "` ") ++ us) ++ R) with (B ". `" ++ x ++ B "` " ++ (us ++ R)) by (text_; reflexivity). apply nc_prop; assumption.
Qed.
Lemma take_dots : forall ps us R, chained prints_dot ps us -> ps <> [] -> begins w_prop R ->
  forall t, takes t (PPlus dot1) us R (HFold 1 (fun t0 => fold_left prop_term ps t0)).
Proof.
  intros ps us R H HN HB. pose proof (prop_nocall _ HB) as HC. induction H as [|x u xs us HP H IH]; [contradiction|]. intros t.
  pose proof (dots_nocall _ _ _ H HC) as HC'. destruct HP as [x HX].
  destruct H as [|x2 u2 xs us HP H].
  - cbn [fold_left]. rewrite app_nil_r. apply plus_last; [apply take_dot; [exact HX|apply nocall_gapfree, HC]|].
    apply no_dot; [apply gapfree_nonempty, nocall_gapfree, HC|]. eapply refuse_at; [|exact HB]. stop_.
  - eapply plus_more; [apply take_dot; [exact HX|apply nocall_gapfree, HC']|apply IH; discriminate|].
    intros l1 l2 K1 K2. exact (performs_fold_app inp _ _ _ _ _ K1 K2).
Qed.

Lemma take_property : forall x ps us R t, plain_name x -> ps <> [] -> chained prints_dot ps us -> begins w_prop R ->
  takes t (PRule R_property_expression) (name_text x ++ us) R (HNode (ex_term (prop_chain x ps))).
Proof.
  intros x ps us R t HX HN HD HB. pose proof (prop_nocall _ HB) as HC. pose proof (nocall_gapfree _ HC) as HG.
  pose proof (dots_nocall _ _ _ HD HC) as HC'. pose proof (nocall_gapfree _ HC') as HG'.
  pose proof (fun t => take_atom t x (us ++ R) HX HC') as H1. pose proof (take_dots ps us R HD HN HB) as H2.
  unfold prop_chain. rewrite chain_term. cbn [ex_term]. 
  open_ (us ++ R) c2 r2 E2 K2; [exact HG'|]. open_gap R HG.
  eapply (take_of col off inp (many [[]; x ++ B "` " ++ c2 :: r2; r2] R') (effs [HNone; HNode (named T_IDENTIFIER x); HFold 1 (fun t0 => fold_left prop_term ps t0)])
    (fact_tab [(R_atom, [], FTake 1 [Ho 2 c2])] [([2], FTake 2 [Ho 9 c])]) 100 _ [Ho 1 "`"%char] t);
    [run_trun|reflexivity| |apply node_ok; run_node|nrm_; reflexivity|nrm_; reflexivity].
  hole_ ltac:(first [apply H1|apply H2]).
Qed.
(** without a property there is none *)
Lemma no_property : forall x c R t, plain_name x -> In c (B "=+:") -> refuses t (PRule R_property_expression) (name_text x ++ c :: R).
Proof.
  intros x c R t HX HI. assert (HC : nocall (c :: R)).
  { apply nc_char. cbn in HI. repeat (destruct HI as [<-|HI]; [cbn [In]; intuition discriminate|]). contradiction. }
  pose proof (fun t => take_atom t x (c :: R) HX HC) as H1.
  replace (name_text x ++ c :: R) with (text (many [[]; x ++ B "` " ++ c :: R] R) [Ho 1 "`"%char]) by (nrm_; reflexivity).
  cbn in HI. repeat (destruct HI as [<-|HI]); [..|contradiction].
  all: match goal with H : forall t, takes t _ _ (?c :: _) _ |- _ =>
    eapply (refuse_of col off inp (many [[]; x ++ B "` " ++ c :: R] R) (effs [HNone; HNode (named T_IDENTIFIER x)]) (fact_tab [(R_atom, [], FTake 1 [Ho 9 c])] []) 100) end;
    [run_fail|reflexivity|].
  all: hole_ ltac:(first [apply H1]).
Qed.

(** ** Labels *)
Definition w_label : list bytes := B ": " :: w_item.
Lemma label_gapfree : forall R, begins w_label R -> gapfree R.
Proof.
  intros R (w & R' & [<-|H] & ->); [left; eexists; eexists; split; [reflexivity|cbn [In]; intuition discriminate]|].
  apply closer_gapfree, begins_closer. exists w, R'. auto.
Qed.
Lemma label_element : element R_label prints_label (named T_LABEL) (begins w_label).
Proof.
  intros x u R HP HB. destruct HP as [x HX]. split; [discriminate|]. split; [left; eexists; eexists; split; [reflexivity|cbn [In]; intuition discriminate]|].
  intros t. apply take_label; [exact HX|apply label_gapfree, HB].
Qed.
Lemma take_labels : forall n k ls us R, In (n, k) [(3, 1); (4, 3); (3, 2); (2, 1)] -> ls <> [] -> chained prints_label ls us -> begins w_item R ->
  forall t, takes t (PPlus (chain_of k R_label)) us R (HGrow n [k] (map (named T_LABEL) ls)).
Proof.
  intros n k ls us R HI HN HL HB. eapply chained_plus; [exact HI|exact HN|exact label_element| |exact HL| | |].
  - intros x u R' [y HY]. rewrite <- app_assoc. apply begins_with. left. reflexivity.
  - eapply begins_more; [exact HB|i_].
  - apply gapfree_nonempty, label_gapfree. eapply begins_more; [exact HB|i_].
  - eapply refuse_at; [|exact HB]. stop_.
Qed.

(** ** Items *)
Lemma sitem_element : element R_set_item prints_sitem sitem_term (begins w_item).
Proof.
  intros i u R HP HB. pose proof (begins_closer _ HB) as HC. pose proof (closer_gapfree _ HC) as HG.
  destruct HP as [x ps e us u HX HN HD HE|x e u HX HE|x e u HX HE|x ls us HX HN HL]; (split; [discriminate|]);
    (split; [rewrite <- app_assoc; apply name_gapfree|]); intros t; cbn [sitem_term].
  - pose proof (fun t => take_property x ps us (B "= " ++ u ++ R) t HX HN HD ltac:(apply begins_with; left; reflexivity)) as H1.
    pose proof (fun t => take_ex col off inp e u R t HE HC) as H2.
    open_ (u ++ R) c2 r2 E2 K2; [exact (print_gapfree _ _ _ _ HE)|]. open_gap R HG. generalize dependent (ex_term (prop_chain x ps)). intros tm H1.
    eapply (take_of col off inp (many [[]; x ++ B "` " ++ us ++ B "= " ++ c2 :: r2; r2] R') (effs [HNone; HNode tm; HNode (ex_term e)])
      (fact_tab [(R_property_expression, [1], FTake 1 (map Kn (B "= ") ++ [Ho 2 c2])); (R_expression, [2], FTake 2 [Ho 9 c])] []) 100 _ [Ho 1 "`"%char] t);
      [run_trun|reflexivity| |apply node_ok; run_node|nrm_; reflexivity|nrm_; reflexivity].
    hole_ ltac:(first [apply H1|apply H2]).
  - pose proof (fun t => no_property x "=" (B " " ++ u ++ R) t HX ltac:(in_)) as H0.
    pose proof (fun t => take_name col off inp t x (B "= " ++ u ++ R) HX ltac:(left; eexists; eexists; split; [reflexivity|cbn [In]; intuition discriminate])) as H1.
    pose proof (fun t => take_ex col off inp e u R t HE HC) as H2.
    open_ (u ++ R) c2 r2 E2 K2; [exact (print_gapfree _ _ _ _ HE)|]. open_gap R HG.
    eapply (take_of col off inp (many [[]; x ++ B "` = " ++ c2 :: r2; r2] R') (effs [HNone; HNode (named T_IDENTIFIER x); HNode (ex_term e)])
      (fact_tab [(R_property_expression, [1], FFail); (R_identifier, [1], FTake 1 (map Kn (B "= ") ++ [Ho 2 c2])); (R_expression, [2], FTake 2 [Ho 9 c])] []) 100 _ [Ho 1 "`"%char] t);
      [run_trun|reflexivity| |apply node_ok; run_node|nrm_; reflexivity|nrm_; reflexivity].
    hole_ ltac:(first [apply H0|apply H1|apply H2]).
  - pose proof (fun t => no_property x "+" (B "= " ++ u ++ R) t HX ltac:(in_)) as H0.
    pose proof (fun t => take_name col off inp t x (B "+= " ++ u ++ R) HX ltac:(left; eexists; eexists; split; [reflexivity|cbn [In]; intuition discriminate])) as H1.
    pose proof (fun t => take_ex col off inp e u R t HE HC) as H2.
    open_ (u ++ R) c2 r2 E2 K2; [exact (print_gapfree _ _ _ _ HE)|]. open_gap R HG.
    eapply (take_of col off inp (many [[]; x ++ B "` += " ++ c2 :: r2; r2] R') (effs [HNone; HNode (named T_IDENTIFIER x); HNode (ex_term e)])
      (fact_tab [(R_property_expression, [1], FFail); (R_identifier, [1], FTake 1 (map Kn (B "+= ") ++ [Ho 2 c2])); (R_expression, [2], FTake 2 [Ho 9 c])] []) 100 _ [Ho 1 "`"%char] t);
      [run_trun|reflexivity| |apply node_ok; run_node|nrm_; reflexivity|nrm_; reflexivity].
    hole_ ltac:(first [apply H0|apply H1|apply H2]).
  - pose proof (take_labels 4 3 ls us R ltac:(in_) HN HL HB) as H2. assert (HU : exists u', us = B ":" ++ u').
    { destruct HL as [|y v ys vs HY HL]; [contradiction|]. destruct HY. eexists. reflexivity. }
    destruct HU as [u' HU]. 
    pose proof (fun t => no_property x ":" (u' ++ R) t HX ltac:(in_)) as H0.
    pose proof (fun t => take_name col off inp t x (us ++ R) HX ltac:(rewrite HU; left; eexists; eexists; split; [reflexivity|cbn [In]; intuition discriminate])) as H1.
    rewrite <- (app_nil_r (map (named T_LABEL) ls)). open_gap R HG. subst us.
    eapply (take_of col off inp (many [[]; x ++ B "` :" ++ u' ++ c :: R'; u' ++ c :: R'] R') (effs [HNone; HNode (named T_IDENTIFIER x); HGrow 4 [3] (map (named T_LABEL) ls)])
      (fact_tab [(R_property_expression, [1], FFail); (R_identifier, [1], FTake 1 [Ho 2 ":"%char])] [([2], FTake 2 [Ho 9 c])]) 100 _ [Ho 1 "`"%char] t);
      [run_trun|reflexivity| |apply node_ok; run_node|nrm_; reflexivity|nrm_; reflexivity].
    hole_ ltac:(first [apply H0|apply H1|apply H2]).
Qed.
Lemma ritem_element : element R_remove_item prints_ritem ritem_term (begins w_item).
Proof.
  intros i u R HP HB. pose proof (begins_closer _ HB) as HC. pose proof (closer_gapfree _ HC) as HG.
  destruct HP as [x ps us HX HN HD|x ls us HX HN HL]; (split; [discriminate|]);
    (split; [rewrite <- app_assoc; apply name_gapfree|]); intros t; cbn [ritem_term].
  - pose proof (fun t => take_property x ps us R t HX HN HD ltac:(eapply begins_more; [exact HB|i_])) as H1.
    open_gap R HG. generalize dependent (ex_term (prop_chain x ps)). intros tm H1.
    eapply (take_of col off inp (many [[]; x ++ B "` " ++ us ++ c :: R'] R') (effs [HNone; HNode tm])
      (fact_tab [(R_property_expression, [1], FTake 1 [Ho 9 c])] []) 100 _ [Ho 1 "`"%char] t);
      [run_trun|reflexivity| |apply node_ok; run_node|nrm_; reflexivity|nrm_; reflexivity].
    hole_ ltac:(first [apply H1]).
  - pose proof (take_labels 3 2 ls us R ltac:(in_) HN HL HB) as H2. assert (HU : exists u', us = B ":" ++ u').
    { destruct HL as [|y v ys vs HY HL]; [contradiction|]. destruct HY. eexists. reflexivity. }
    destruct HU as [u' HU]. 
    pose proof (fun t => no_property x ":" (u' ++ R) t HX ltac:(in_)) as H0.
    pose proof (fun t => take_name col off inp t x (us ++ R) HX ltac:(rewrite HU; left; eexists; eexists; split; [reflexivity|cbn [In]; intuition discriminate])) as H1.
    rewrite <- (app_nil_r (map (named T_LABEL) ls)). open_gap R HG. subst us.
    eapply (take_of col off inp (many [[]; x ++ B "` :" ++ u' ++ c :: R'; u' ++ c :: R'] R') (effs [HNone; HNode (named T_IDENTIFIER x); HGrow 3 [2] (map (named T_LABEL) ls)])
      (fact_tab [(R_property_expression, [1], FFail); (R_identifier, [1], FTake 1 [Ho 2 ":"%char])] [([2], FTake 2 [Ho 9 c])]) 100 _ [Ho 1 "`"%char] t);
      [run_trun|reflexivity| |apply node_ok; run_node|nrm_; reflexivity|nrm_; reflexivity].
    hole_ ltac:(first [apply H0|apply H1|apply H2]).
Qed.

(** ** SET, REMOVE, LOAD CSV *)
Ltac list_rule t kw r c1 r1 c5 r5 c R' tm1 ts :=
  eapply (take_of col off inp (many [[]; r1; []; []; []; r5] R') (effs [HNone; HNode tm1; HNone; HNone; HNone; HGrow 1 [0] ts])
    (fact_tab [(r, [1], FTake 1 [Ho 5 c5])] [([5], FTake 5 [Ho 9 c])]) 200 _ (map Kn kw ++ [Ho 1 c1]) t);
  [run_trun|reflexivity| |apply node_ok; run_node|nrm_; reflexivity|nrm_; reflexivity].
Lemma take_set : forall is u R t, listed prints_sitem is u -> begins w_after R ->
  takes t (PRule R_clause) (B "SET " ++ u) R (HNode (clause_term (SetC is))).
Proof.
  intros is u R t HL HB.
  destruct (open_list col off inp _ R_set_item _ _ w_after _ _ R HL sitem_element) as (u1 & us & tm & ts & -> & HM & G1 & G2 & H1 & H2);
    [i_|exact HB|stop_|].
  assert (HG : gapfree R) by (eapply after_gap; [exact HB|i_]).
  cbn [clause_term]. rewrite HM. rewrite <- (app_nil_r ts). specialize (H2 1 0).
  open_ (u1 ++ us ++ R) c1 r1 E1 K1; [exact G1|]. open_ (us ++ R) c5 r5 E5 K5; [exact G2|]. open_gap R HG.
  list_rule t (B "SET ") R_set_item c1 r1 c5 r5 c R' tm ts.
  hole_ ltac:(first [apply H1|apply H2; in_]).
Qed.
Lemma take_remove : forall is u R t, listed prints_ritem is u -> begins w_after R ->
  takes t (PRule R_clause) (B "REMOVE " ++ u) R (HNode (clause_term (Remove is))).
Proof.
  intros is u R t HL HB.
  destruct (open_list col off inp _ R_remove_item _ _ w_after _ _ R HL ritem_element) as (u1 & us & tm & ts & -> & HM & G1 & G2 & H1 & H2);
    [i_|exact HB|stop_|].
  assert (HG : gapfree R) by (eapply after_gap; [exact HB|i_]).
  cbn [clause_term]. rewrite HM. rewrite <- (app_nil_r ts). specialize (H2 1 0).
  open_ (u1 ++ us ++ R) c1 r1 E1 K1; [exact G1|]. open_ (us ++ R) c5 r5 E5 K5; [exact G2|]. open_gap R HG.
  list_rule t (B "REMOVE ") R_remove_item c1 r1 c5 r5 c R' tm ts.
  hole_ ltac:(first [apply H1|apply H2; in_]).
Qed.

(** ** Actions of MERGE *)
Definition w_act : list bytes := B "ON " :: w_after.
Lemma act_item : incl w_act w_item.
Proof. intros w [<-|H]; [in_|]. do 7 right. exact H. Qed.
Lemma act_element : element R_merge_action prints_act act_term (begins w_act).
Proof.
  intros a u R HP HB. destruct HP as [b is u HL]. split; [destruct b; discriminate|].
  split; [left; destruct b; eexists; eexists; (split; [reflexivity|cbn [In]; intuition discriminate])|]. intros t.
  destruct (open_list col off inp _ R_set_item _ _ w_act _ _ R HL sitem_element) as (u1 & us & tm & ts & -> & HM & G1 & G2 & H1 & H2);
    [exact act_item|exact HB|stop_|].
  assert (HG : gapfree R) by (eapply after_gap; [exact HB|exact act_item]).
  unfold act_term. cbn [fst snd]. rewrite HM. rewrite <- (app_nil_r ts). specialize (H2 1 0).
  open_ (u1 ++ us ++ R) c1 r1 E1 K1; [exact G1|]. open_ (us ++ R) c5 r5 E5 K5; [exact G2|]. open_gap R HG.
  destruct b; [list_rule t (B "ON CREATE SET ") R_set_item c1 r1 c5 r5 c R' tm ts|list_rule t (B "ON MATCH SET ") R_set_item c1 r1 c5 r5 c R' tm ts].
  all: hole_ ltac:(first [apply H1|apply H2; in_]).
Qed.

(** ** LOAD CSV *)
Lemma take_string_literal : forall t u v R, quoted_text u v -> gapfree R ->
  takes t (PRule R_string_literal) (u ++ B " ") R (HNode (named T_STRING v)).
Proof.
  intros t u v R HQ HG. pose proof HQ as (q & body & Q1 & -> & _). open_gap R HG.
  destruct Q1 as [-> | ->].
  - eapply (take_of col off inp (two (body ++ ["'"%char]) R') (one_eff (HAppend v)) fact_quoted 60 _ [Ho 0 "'"%char; Kn " "%char; Ho 9 c] t);
    [run_trun|reflexivity| |apply node_ok; run_node|text_; reflexivity|text_; reflexivity].
    obs_ ltac:(eapply ob_take; [cbn [one_eff]; text_; apply take_quoted; exact HQ|text_; reflexivity]).
  - eapply (take_of col off inp (two (body ++ [""""%char]) R') (one_eff (HAppend v)) fact_quoted 60 _ [Ho 0 """"%char; Kn " "%char; Ho 9 c] t);
    [run_trun|reflexivity| |apply node_ok; run_node|text_; reflexivity|text_; reflexivity].
    obs_ ltac:(eapply ob_take; [cbn [one_eff]; text_; apply take_quoted; exact HQ|text_; reflexivity]).
Qed.
Lemma take_load : forall (h : bool) e x d u ut R t, prints 0 e u -> plain_name x ->
  maybe (B "FIELDTERMINATOR ") (fun v z => exists z', quoted_text z' v /\ z = z' ++ B " ") d ut -> begins w_after R ->
  takes t (PRule R_clause) ((if h then B "LOAD CSV WITH HEADERS FROM " else B "LOAD CSV FROM ") ++ u ++ B "AS " ++ name_text x ++ ut) R (HNode (clause_term (LoadCsv h e x d))).
Proof.
  intros h e x d u ut R t HE HX HD HB. assert (HG : gapfree R) by (eapply after_gap; [exact HB|i_]).
  pose proof (fun t => take_ex col off inp e u (B "AS " ++ name_text x ++ ut ++ R) t HE ltac:(apply cl_word; in_)) as H1.
  assert (H3 : forall t, refuses t (PRule R_FIELDTERMINATOR) R) by (eapply refuse_at; [|exact HB]; stop_).
  open_ (u ++ B "AS " ++ name_text x ++ ut ++ R) c1 r1 E1 K1; [exact (print_gapfree _ _ _ _ HE)|].
  destruct HD as [|d z (z' & HQ & ->)].
  - pose proof (fun t => take_name col off inp t x R HX HG) as H2. open_gap R HG. destruct h.
    + eapply (take_of col off inp (many [[]; r1; x ++ B "` " ++ c :: R'] R') (effs [HNone; HNode (ex_term e); HNode (named T_IDENTIFIER x)])
      (fact_tab [(R_expression, [], FTake 1 (map Kn (B "AS ") ++ [Ho 2 "`"%char])); (R_identifier, [], FTake 2 [Ho 9 c]); (R_FIELDTERMINATOR, [], FFail)] [])
        200 _ (map Kn (B "LOAD CSV WITH HEADERS FROM ") ++ [Ho 1 c1]) t);
      [run_trun|reflexivity| |apply node_ok; run_node|nrm_; reflexivity|nrm_; reflexivity].
      hole_ ltac:(first [apply H1|apply H2|apply H3]).
    + eapply (take_of col off inp (many [[]; r1; x ++ B "` " ++ c :: R'] R') (effs [HNone; HNode (ex_term e); HNode (named T_IDENTIFIER x)])
      (fact_tab [(R_expression, [], FTake 1 (map Kn (B "AS ") ++ [Ho 2 "`"%char])); (R_identifier, [], FTake 2 [Ho 9 c]); (R_FIELDTERMINATOR, [], FFail)] [])
        200 _ (map Kn (B "LOAD CSV FROM ") ++ [Ho 1 c1]) t);
      [run_trun|reflexivity| |apply node_ok; run_node|nrm_; reflexivity|nrm_; reflexivity].
      hole_ ltac:(first [apply H1|apply H2|apply H3]).
  - pose proof (fun t => take_name col off inp t x (B "FIELDTERMINATOR " ++ (z' ++ B " ") ++ R) HX
      ltac:(left; eexists; eexists; split; [reflexivity|cbn [In]; intuition discriminate])) as H2.
    pose proof (fun t => take_string_literal t z' d R HQ HG) as H4.
    open_ (z' ++ B " " ++ R) c3 r3 E3 K3.
    { destruct HQ as (q & body & [-> | ->] & -> & _); left; eexists; eexists; (split; [reflexivity|cbn [In]; intuition discriminate]). }
    open_gap R HG. destruct h.
    + eapply (take_of col off inp (many [[]; r1; x ++ B "` FIELDTERMINATOR " ++ c3 :: r3; r3] R') (effs [HNone; HNode (ex_term e); HNode (named T_IDENTIFIER x); HNode (named T_STRING d)])
      (fact_tab [(R_expression, [], FTake 1 (map Kn (B "AS ") ++ [Ho 2 "`"%char])); (R_identifier, [], FTake 2 (map Kn (B "FIELDTERMINATOR ") ++ [Ho 3 c3])); (R_string_literal, [], FTake 3 [Ho 9 c])] [])
        200 _ (map Kn (B "LOAD CSV WITH HEADERS FROM ") ++ [Ho 1 c1]) t);
      [run_trun|reflexivity| |apply node_ok; run_node|nrm_; reflexivity|nrm_; reflexivity].
      hole_ ltac:(first [apply H1|apply H2|apply H4]).
    + eapply (take_of col off inp (many [[]; r1; x ++ B "` FIELDTERMINATOR " ++ c3 :: r3; r3] R') (effs [HNone; HNode (ex_term e); HNode (named T_IDENTIFIER x); HNode (named T_STRING d)])
      (fact_tab [(R_expression, [], FTake 1 (map Kn (B "AS ") ++ [Ho 2 "`"%char])); (R_identifier, [], FTake 2 (map Kn (B "FIELDTERMINATOR ") ++ [Ho 3 c3])); (R_string_literal, [], FTake 3 [Ho 9 c])] [])
        200 _ (map Kn (B "LOAD CSV FROM ") ++ [Ho 1 c1]) t);
      [run_trun|reflexivity| |apply node_ok; run_node|nrm_; reflexivity|nrm_; reflexivity].
      hole_ ltac:(first [apply H1|apply H2|apply H4]).
Qed.

(** ** FOREACH *)
Lemma take_foreach : forall x e cs u us R t, plain_name x -> prints 0 e u -> us <> [] -> gapfree us ->
  (forall t, takes t (PPlus (chain_of 2 R_clause)) us (B ") " ++ R) (HGrow 3 [2] (map clause_term cs))) -> begins w_after R ->
  takes t (PRule R_clause) (B "FOREACH ( " ++ name_text x ++ B "IN " ++ u ++ B "| " ++ us ++ B ") ") R (HNode (clause_term (Foreach x e cs))).
Proof.
  intros x e cs u us R t HX HE HN GU H3 HB. assert (HG : gapfree R) by (eapply after_gap; [exact HB|i_]).
  pose proof (fun t => take_name col off inp t x (B "IN " ++ u ++ B "| " ++ us ++ B ") " ++ R) HX
    ltac:(left; eexists; eexists; split; [reflexivity|cbn [In]; intuition discriminate])) as H1.
  pose proof (fun t => take_ex col off inp e u (B "| " ++ us ++ B ") " ++ R) t HE ltac:(apply cl_char; in_)) as H2.
  cbn [clause_term]. rewrite <- (app_nil_r (map clause_term cs)). generalize dependent (map clause_term cs). intros ts H3.
  open_ (u ++ B "| " ++ us ++ B ") " ++ R) c2 r2 E2 K2; [exact (print_gapfree _ _ _ _ HE)|].
  destruct us as [|c3 us]; [contradiction|]. 
  assert (G3 : gapfree ((c3 :: us) ++ B ") " ++ R)).
  { destruct GU as [(c & r & E & GC)|(r & E)]; [left|right]; rewrite E; cbn [app]; eauto. }
  open_gap R HG.
  eapply (take_of col off inp (many [[]; x ++ B "` IN " ++ c2 :: r2; r2; us ++ B ") " ++ c :: R'] R')
    (effs [HNone; HNode (named T_IDENTIFIER x); HNode (ex_term e); HGrow 3 [2] ts])
    (fact_tab [(R_identifier, [1], FTake 1 (map Kn (B "IN ") ++ [Ho 2 c2])); (R_expression, [2], FTake 2 (map Kn (B "| ") ++ [Ho 3 c3]))] [([3], FTake 3 (map Kn (B ") ") ++ [Ho 9 c]))])
    200 _ (map Kn (B "FOREACH ( ") ++ [Ho 1 "`"%char]) t);
    [run_trun|reflexivity| |apply node_ok; run_node|nrm_; reflexivity|nrm_; reflexivity].
  hole_ ltac:(first [apply H1|apply H2|apply H3]).
Qed.
End Item.
