(** * What the rules of patterns take *)
From Coq Require Import List Bool Arith Ascii String ZArith Lia Permutation.
From Verif Require Import Peg PegProofs PegThunks QuickModel QuickSpec QuickProofs CypherSyntax CypherGrammar OperModel ErrModel
  CypherMatch AstTypes AstModel CypherBuild CypherExec CypherParse CypherRun CypherRound CypherSpec
  NodeFacts NodeHeld FlowSound FlowRun SafeProofs TraceSpec TraceProofs LexSpec LexProofs TermSpec Forward ForwardExec ForwardLex
  ForwardStep ForwardAtom ForwardExpr ForwardName ForwardNum ForwardPat ForwardForm ExprSpec ForwardPrint StmtSpec ForwardStmt ForwardClause ForwardItem.
Import ListNotations.
Open Scope peg_scope.
Opaque parse_one cfuel.
Strategy expand [crun].

(** what can follow within a node or a relationship *)
Definition w_end : list bytes := [B ")"; B "]"].
Definition w_props : list bytes := B "{ " :: B "$" :: w_end.
Definition w_steps : list bytes := B "* " :: w_props.
Definition w_types : list bytes := B ": " :: w_steps.
Definition w_pipe : list bytes := B "| " :: w_steps.
Lemma types_gapfree : forall R, begins w_types R -> gapfree R.
Proof.
  intros R (w & R' & H & ->). left. unfold w_types, w_steps, w_props, w_end in H. cbn [In] in H.
  repeat (destruct H as [<-|H]; [eexists; eexists; split; [reflexivity|cbn [In]; intuition discriminate]|]). contradiction.
Qed.
Lemma pipe_gapfree : forall R, begins w_pipe R -> gapfree R.
Proof.
  intros R (w & R' & H & ->). left. unfold w_pipe, w_steps, w_props, w_end in H. cbn [In] in H.
  repeat (destruct H as [<-|H]; [eexists; eexists; split; [reflexivity|cbn [In]; intuition discriminate]|]). contradiction.
Qed.
Ltac gapchar := left; eexists; eexists; split; [reflexivity|cbn [In]; intuition discriminate].

(** what can follow a path *)
Definition w_path : list bytes := B "," :: B " )" :: map (cons " "%char) w_item.
(** an expression refused where the text begins with the word, whatever comes next *)
Definition dead_end (e : cexp) (w : bytes) : Prop :=
  w <> [] /\
  forall t, exists t' obs, trun (tight nofact) 90 e (word_toks w) t = TFail t' obs /\ t_prs t' = t_prs t /\
    Forall (fun o => ~ In (last w " "%char) (B " /" ++ ["009"; "010"; "013"]%char) /\ exists t, o = mko sp1 [Ho 9 (last w " "%char)] t FPass) obs.

Section Pattern.
Variables (col : coloring) (off : position) (inp : bytes).
Notation runc := (run CG (get_of inp) (cprun col off)).
Notation cst := (pst action cuser).
Notation performs := (performs inp).
Notation takes := (takes col off inp).
Notation refuses := (refuses col off inp).
Notation element := (element col off inp).
Notation opt_takes := (opt_takes col off inp).

(** ** Properties *)
Ltac name_ := apply take_backquoted; assumption.
Ltac holes_ tac := obs_ ltac:(first [eapply ob_take; [cbn [effs nth]; text_; first [name_|tac]|text_; reflexivity]|apply ob_refuse; text_; tac]).
Ltac rep_ H us' H' := destruct H as [(-> & ->)|(us' & -> & H')].
Lemma take_props_map0 : forall t R, gapfree R -> takes t (PRule R_pattern_properties) (B "{ } ") R (HNode (T T_MAP [TList []])).
Proof.
  intros t R HG. open_gap R HG.
  eapply (take_of col off inp (many [] R') (effs []) fact_form 100 _ (map Kn (B "{ } ") ++ [Ho 9 c]) t);
    [run_trun|reflexivity| |apply node_ok; run_node|text_; reflexivity|text_; reflexivity].
  holes_ fail.
Qed.
Lemma take_props_map : forall t v u us R tm ts, ~ In "`"%char v -> u <> [] -> gapfree (u ++ us ++ B "} " ++ R) -> gapfree R ->
  (forall t', takes t' (PRule R_expression) u (us ++ B "} " ++ R) (HNode tm)) ->
  rep col off inp entry_item SLost 1 us ts (B "} " ++ R) ->
  takes t (PRule R_pattern_properties) (B "{ " ++ name_text v ++ B ": " ++ u ++ us ++ B "} ") R
    (HNode (T T_MAP [TList (T T_PROP_NAME [TStr v] :: tm :: ts)])).
Proof.
  intros t v u us R tm ts HV HU HG HR HT HP. destruct u as [|c1 u1]; [contradiction|]. open_gap R HR.
  rep_ HP us' HL.
  - eapply (take_of col off inp (many [v ++ ["`"%char]; u1] R') (effs [HAppend v; HNode tm]) fact_form 100 _
      (map Kn (B "{ ") ++ Ho 0 "`"%char :: map Kn (B " : ") ++ Ho 1 c1 :: map Kn (B "} ") ++ [Ho 9 c]) t);
      [run_trun|reflexivity| |apply node_ok; run_node|unfold name_text; text_; reflexivity|text_; reflexivity].
    holes_ ltac:(first [apply HT]).
  - rewrite <- (app_nil_r ts).
    eapply (take_of col off inp (many [v ++ ["`"%char]; u1; []; []; []; us'] R') (effs [HAppend v; HNode tm; HNone; HNone; HNone; HSeq SLost 1 ts]) fact_form 100 _
      (map Kn (B "{ ") ++ Ho 0 "`"%char :: map Kn (B " : ") ++ Ho 1 c1 :: Ho 5 ","%char :: map Kn (B "} ") ++ [Ho 9 c]) t);
      [run_trun|reflexivity| |apply node_ok; run_node|unfold name_text; text_; reflexivity|text_; reflexivity].
    holes_ ltac:(first [apply HT|apply star_of_plus; apply HL]).
Qed.
Lemma take_props_param : forall t v R, plain_name v -> gapfree R ->
  takes t (PRule R_pattern_properties) (B "$" ++ name_text v) R (HNode (T T_PARAMETER [TStr v])).
Proof.
  intros t v R HN HG. open_gap R HG.
  eapply (take_of col off inp (two (v ++ ["`"%char]) R') (one_eff (HAppend v)) fact_name 60 _ [Kn "$"%char; Ho 0 "`"%char; Kn " "%char; Ho 9 c] t);
    [run_trun|reflexivity| |apply node_ok; run_node|unfold name_text; text_; reflexivity|text_; reflexivity].
  obs_ ltac:(eapply ob_take; [cbn [one_eff]; text_; apply take_backquoted; exact HN|text_; reflexivity]).
Qed.
Lemma take_props_any : forall k es u R t, prints k (EMap es) u -> gapfree R -> takes t (PRule R_pattern_properties) u R (HNode (ex_term (EMap es))).
Proof.
  intros k es u R t HP HG. inversion HP; subst; try discriminate.
  - apply take_props_map0. exact HG.
  - match goal with He : prints 0 ?e ?u', Hs : prints_entries _ ?us |- _ =>
      pose proof (proj1 (all_read col off inp) 0 e u' He) as HR0;
      pose proof (proj1 (proj2 (proj2 (proj2 (proj2 (all_read col off inp))))) _ us Hs (" "%char :: R)) as HE0;
      destruct (top_ok col off inp 0 e u' _ He HR0 (rep_closer _ _ _ _ _ _ _ _ _ HE0 (cl_char "}"%char _ ltac:(cbn; auto 10)))) as (T1 & T2 & T3) end.
    cbn [ex_term flat_map fst snd app]. apply take_props_map; assumption.
Qed.
Lemma opt_props : forall p up R, prints_props p up -> begins w_end R ->
  exists oo, props_term p = TNode oo /\ opt_takes R_pattern_properties up R oo /\ begins w_props (up ++ R).
Proof.
  intros p up R HP HB. assert (HB' : begins w_props R) by (eapply begins_more; [exact HB|i_]).
  assert (HG : gapfree R) by (apply types_gapfree; eapply begins_more; [exact HB|i_]).
  destruct HP as [|es u HP|v HV].
  - exists None. split; [reflexivity|]. split; [|exact HB']. split; [reflexivity|]. eapply refuse_at; [|exact HB]. stop_.
  - exists (Some (ex_term (EMap es))). split; [reflexivity|]. split; [intros t; eapply take_props_any; eassumption|].
    inversion HP; subst; try discriminate; rewrite <- ?app_assoc; [exists (B "{ "), (B "} " ++ R); split; [in_|reflexivity]|apply begins_with; in_].
  - exists (Some (T T_PARAMETER [TStr v])). split; [reflexivity|]. split; [intros t; apply take_props_param; assumption|].
    rewrite <- app_assoc. apply begins_with. in_.
Qed.

(** ** Names, labels, types, numbers of steps *)
Lemma opt_name : forall x ux R, maybe [] prints_name x ux -> begins w_types R ->
  opt_takes R_identifier ux R (option_map (named T_IDENTIFIER) x) /\ gapfree (ux ++ R).
Proof.
  intros x ux R HX HB. pose proof (types_gapfree _ HB) as HG. destruct HX as [|x u HX].
  - split; [|exact HG]. split; [reflexivity|]. eapply refuse_at; [|exact HB]. stop_.
  - destruct HX as [x HX]. split; [|apply name_gapfree]. intros t. apply take_name; assumption.
Qed.
Lemma node_label_element : element R_label prints_label (named T_LABEL) (begins w_types).
Proof.
  intros x u R HP HB. destruct HP as [x HX]. split; [discriminate|]. split; [gapchar|].
  intros t. apply take_label; [exact HX|apply types_gapfree, HB].
Qed.
Lemma take_node_labels : forall ls us R, chained prints_label ls us -> begins w_props R ->
  begins w_types (us ++ R) /\ forall t, takes t (PStar (chain_of 1 R_label)) us R (HGrow 3 [1] (map (named T_LABEL) ls)).
Proof.
  intros ls us R HL HB. assert (HB' : begins w_types R) by (eapply begins_more; [exact HB|i_]). split.
  - destruct HL as [|x u xs us HP HL]; [exact HB'|]. destruct HP. rewrite <- !app_assoc. apply begins_with. left. reflexivity.
  - eapply chained_take; [in_|exact node_label_element| |exact HL|exact HB'| |].
    + intros x u R' [y HY]. rewrite <- app_assoc. apply begins_with. left. reflexivity.
    + apply gapfree_nonempty, types_gapfree, HB'.
    + eapply refuse_at; [|exact HB]. stop_.
Qed.

Lemma take_node : forall n u R t, prints_node n u -> R <> [] -> takes t (PRule R_node_pattern) u R (HNode (node_term n)).
Proof.
  intros n u R t HP HR. destruct HP as [x ls p ux ul up HX HL HP]. destruct R as [|c R]; [contradiction|].
  assert (HE : begins w_end (B ")" ++ c :: R)) by (apply begins_with; in_).
  destruct (opt_props _ _ _ HP HE) as (oo & O0 & O1 & O2). destruct (take_node_labels _ _ _ HL O2) as [L1 L2].
  destruct (opt_name _ _ _ HX L1) as [N1 N2]. unfold node_term. cbn [n_name n_labels n_props]. rewrite O0. unfold opt_ident.
  assert (G2 : gapfree (ul ++ up ++ B ")" ++ c :: R)) by (apply types_gapfree, L1).
  assert (G3 : gapfree (up ++ B ")" ++ c :: R)) by (apply types_gapfree; eapply begins_more; [exact O2|i_]).
  generalize dependent (option_map (named T_IDENTIFIER) x). rewrite <- (app_nil_r (map (named T_LABEL) ls)). generalize dependent (map (named T_LABEL) ls).
  intros ts L2 ox N1. clear HX HL HP O0 O2 L1 HE.
  open_ (ux ++ ul ++ up ++ B ")" ++ c :: R) c1 r1 E1 K1; [exact N2|]. open_ (ul ++ up ++ B ")" ++ c :: R) c2 r2 E2 K2; [exact G2|].
  open_ (up ++ B ")" ++ c :: R) c3 r3 E3 K3; [exact G3|].
  destruct ox as [tx|], oo as [to|]; cbn [ForwardClause.opt_takes] in N1, O1; try (destruct N1 as [-> N1]); try (destruct O1 as [-> O1]).
  all: match goal with |- takes _ _ _ _ (HNode (T _ [TNode ?ox; _; TNode ?oo])) =>
    eapply (take_of col off inp (many [[]; r1; r2; r3; c :: R] R) (effs [HNone; opt_eff ox; HGrow 3 [1] ts; opt_eff oo])
      (fact_tab [(R_identifier, [], opt_fact 1 [Ho 2 c2] ox); (R_pattern_properties, [], opt_fact 3 [Kn ")"%char; Ho 9 c] oo)]
         [([1; 2], FTake 2 (match oo with Some _ => [Ho 3 c3] | None => [Kn ")"%char; Ho 9 c] end))]) 200 _ (map Kn (B "( ") ++ [Ho 1 c1]) t) end;
    [run_trun|reflexivity| |apply node_ok; run_node|nrm_; reflexivity|nrm_; reflexivity].
  all: hole_ ltac:(first [apply N1|apply L2|apply O1]).
Qed.

(** *** Integers *)
Lemma take_integer : forall t v R, digits v -> gapfree R -> takes t (PRule R_integer_literal) (v ++ B " ") R (HNode (named T_INTEGER v)).
Proof.
  intros t [|d ds] R [HN HD] HG; [contradiction|]. clear HN. open_gap R HG.
  pose proof (fun t => take_digits col off inp t d ds (c :: R') HD) as T1.
  eapply (take_of col off inp (two ds R') (one_eff (HAppend (d :: ds))) fact_int 60 _ [Ho 0 d; Kn " "%char; Ho 9 c] t);
    [run_trun|reflexivity| |apply node_ok; run_node|text_; reflexivity|text_; reflexivity].
  obs_ ltac:(eapply ob_take; [cbn [one_eff]; text_; apply T1|text_; reflexivity]).
Qed.
Lemma digits_gapfree : forall v R, digits v -> gapfree (v ++ R).
Proof.
  intros [|d ds] R [HN HD]; [contradiction|]. pose proof (HD d (or_introl eq_refl)) as K. unfold digit_chars in K. cbn in K.
  left. exists d, (ds ++ R). split; [reflexivity|]. repeat (destruct K as [<-|K]; [cbn [In]; intuition discriminate|]). contradiction.
Qed.

Lemma opt_steps : forall s us R, prints_steps s us -> begins w_props R ->
  exists oo, steps_term s = TNode oo /\ opt_takes R_rel_varlength us R oo /\ begins w_steps (us ++ R).
Proof.
  intros s us R HP HB. assert (HB' : begins w_steps R) by (eapply begins_more; [exact HB|i_]).
  assert (HG : gapfree R) by (apply types_gapfree; eapply begins_more; [exact HB|i_]).
  assert (F1 : forall t, refuses t (PRule R_integer_literal) R) by (eapply refuse_at; [|exact HB]; stop_).
  assert (F2 : forall t, refuses t (PRule R_ELLIPSIS) R) by (eapply refuse_at; [|exact HB]; stop_).
  destruct HP as [| |v HV|a b ua ub HA HU].
  - exists None. split; [reflexivity|]. split; [|exact HB']. split; [reflexivity|]. eapply refuse_at; [|exact HB]. stop_.
  - eexists. split; [reflexivity|]. split; [|apply begins_with; in_]. intros t. open_gap R HG.
    eapply (take_of col off inp (many [] R') (effs []) (fact_tab [(R_integer_literal, [], FFail); (R_ELLIPSIS, [], FFail)] []) 100 _ (map Kn (B "* ") ++ [Ho 9 c]) t);
      [run_trun|reflexivity| |apply node_ok; run_node|nrm_; reflexivity|nrm_; reflexivity].
    hole_ ltac:(first [apply F1|apply F2]).
  - eexists. split; [reflexivity|]. split; [|rewrite <- !app_assoc; apply begins_with; in_]. intros t.
    pose proof (fun t => take_integer t v R HV HG) as H1. open_ (v ++ B " " ++ R) c1 r1 E1 K1; [apply digits_gapfree, HV|]. open_gap R HG.
    eapply (take_of col off inp (many [[]; r1] R') (effs [HNone; HNode (named T_INTEGER v)])
      (fact_tab [(R_integer_literal, [], FTake 1 [Ho 9 c]); (R_ELLIPSIS, [], FFail)] []) 100 _ (map Kn (B "* ") ++ [Ho 1 c1]) t);
      [run_trun|reflexivity| |apply node_ok; run_node|nrm_; reflexivity|nrm_; reflexivity].
    hole_ ltac:(first [apply H1|apply F1|apply F2]).
  - eexists. split; [reflexivity|]. split; [|rewrite <- !app_assoc; apply begins_with; in_]. intros t. destruct HA as [|a HA], HU as [|b HU]; cbn [bound option_map].
    + open_gap R HG.
      eapply (take_of col off inp (many [] R') (effs []) (fact_tab [(R_integer_literal, [], FFail)] []) 100 _ (map Kn (B "* .. ") ++ [Ho 9 c]) t);
        [run_trun|reflexivity| |apply node_ok; run_node|nrm_; reflexivity|nrm_; reflexivity].
      hole_ ltac:(first [apply F1|apply F2]).
    + pose proof (fun t => take_integer t b R HU HG) as H1. open_ (b ++ B " " ++ R) c1 r1 E1 K1; [apply digits_gapfree, HU|]. open_gap R HG.
      eapply (take_of col off inp (many [[]; r1] R') (effs [HNone; HNode (named T_INTEGER b)]) (fact_tab [(R_integer_literal, [], FTake 1 [Ho 9 c])] []) 100 _ (map Kn (B "* .. ") ++ [Ho 1 c1]) t);
        [run_trun|reflexivity| |apply node_ok; run_node|nrm_; reflexivity|nrm_; reflexivity].
      hole_ ltac:(first [apply H1]).
    + pose proof (fun t => take_integer t a (B ".. " ++ R) HA ltac:(gapchar)) as H1.
      open_ (a ++ B " .. " ++ R) c1 r1 E1 K1; [apply digits_gapfree, HA|]. open_gap R HG.
      eapply (take_of col off inp (many [[]; r1] R') (effs [HNone; HNode (named T_INTEGER a)])
        (fact_tab [(R_integer_literal, [1], FTake 1 (map Kn (B ".. ") ++ [Ho 9 c])); (R_integer_literal, [9], FFail)] []) 100 _ (map Kn (B "* ") ++ [Ho 1 c1]) t);
        [run_trun|reflexivity| |apply node_ok; run_node|nrm_; reflexivity|nrm_; reflexivity].
      hole_ ltac:(first [apply H1|apply F1]).
    + pose proof (fun t => take_integer t b R HU HG) as H2. pose proof (fun t => take_integer t a (B ".. " ++ b ++ B " " ++ R) HA ltac:(gapchar)) as H1.
      open_ (a ++ B " .. " ++ b ++ B " " ++ R) c1 r1 E1 K1; [apply digits_gapfree, HA|].
      open_ (b ++ B " " ++ R) c2 r2 E2 K2; [apply digits_gapfree, HU|]. open_gap R HG.
      eapply (take_of col off inp (many [[]; r1; r2] R') (effs [HNone; HNode (named T_INTEGER a); HNode (named T_INTEGER b)])
        (fact_tab [(R_integer_literal, [1], FTake 1 (map Kn (B ".. ") ++ [Ho 2 c2])); (R_integer_literal, [2], FTake 2 [Ho 9 c])] []) 100 _ (map Kn (B "* ") ++ [Ho 1 c1]) t);
        [run_trun|reflexivity| |apply node_ok; run_node|nrm_; reflexivity|nrm_; reflexivity].
      hole_ ltac:(first [apply H1|apply H2]).
Qed.

(** *** Types *)
Definition type1 : cexp := PRule R_PIPE ⋅ PRule R_sp ⋅ (bind 0 R_rel_type ∥ bind 0 R_rel_type_name) ⋅ PAct (TDo [SSeqAdd (AVar 0)]).
Lemma take_type1 : forall x u R t, prints_type x u -> gapfree R -> takes t type1 u R (HGrow 1 [0] [named T_RELTYPE x]).
Proof.
  intros x u R t HP HG. destruct HP as [x HX|x HX].
  - pose proof (fun t => take_type_name col off inp t x R HX HG) as H1. open_gap R HG.
    eapply (take_of col off inp (many [[]; x ++ B "` " ++ c :: R'] R') (effs [HNone; HNode (named T_RELTYPE x)]) (fact_tab [(R_rel_type_name, [], FTake 1 [Ho 9 c])] []) 100 _
      (map Kn (B "| ") ++ [Ho 1 "`"%char]) t);
      [run_trun|reflexivity| |apply grow_ok; [reflexivity|run_grow]|nrm_; reflexivity|nrm_; reflexivity].
    hole_ ltac:(apply H1).
  - pose proof (fun t => take_type col off inp t x R HX HG) as H1. open_gap R HG.
    eapply (take_of col off inp (many [[]; B " `" ++ x ++ B "` " ++ c :: R'] R') (effs [HNone; HNode (named T_RELTYPE x)]) (fact_tab [(R_rel_type, [], FTake 1 [Ho 9 c])] []) 100 _
      (map Kn (B "| ") ++ [Ho 1 ":"%char]) t);
      [run_trun|reflexivity| |apply grow_ok; [reflexivity|run_grow]|nrm_; reflexivity|nrm_; reflexivity].
    hole_ ltac:(apply H1).
Qed.
Lemma no_type1 : forall t R, R <> [] -> refuses t (PRule R_PIPE) R -> refuses t type1 R.
Proof.
  intros t R HR H. destruct R as [|c R]; [contradiction|].
  replace (c :: R) with (text (many [] R) [Ho 9 c]) by (text_; reflexivity).
  eapply (refuse_of col off inp (many [] R) (effs []) fact_no 60); [run_fail|reflexivity|].
  obs_ ltac:(apply ob_refuse; text_; exact H).
Qed.
Lemma take_more_types : forall xs us R, chained prints_type xs us -> begins w_steps R ->
  begins w_pipe (us ++ R) /\ forall t, takes t (PStar type1) us R (HGrow 1 [0] (map (named T_RELTYPE) xs)).
Proof.
  intros xs us R H HB. assert (HB' : begins w_pipe R) by (eapply begins_more; [exact HB|i_]).
  induction H as [|x u xs us HP H [IH1 IH2]].
  - split; [exact HB'|]. intros t. apply star_none. apply no_type1; [apply gapfree_nonempty, pipe_gapfree, HB'|]. eapply refuse_at; [|exact HB]. stop_.
  - split; [destruct HP; rewrite <- !app_assoc; [apply begins_with; in_|exists (B "| "); eexists; split; [in_|reflexivity]]|].
    intros t. apply (star_more col off inp t _ u us R 1 [0] [named T_RELTYPE x] (map (named T_RELTYPE) xs)); [|apply IH2].
    apply take_type1; [exact HP|apply pipe_gapfree, IH1].
Qed.
Lemma opt_types : forall ts ut R, prints_types ts ut -> begins w_steps R ->
  begins w_types (ut ++ R) /\ ((ts = [] /\ ut = []) \/ (ut <> [] /\ forall t, takes t (PRule R_rel_types) ut R (HGrow 3 [] (map (named T_RELTYPE) ts)))).
Proof.
  intros ts ut R HP HB. destruct HP as [|x xs us HX HC]; [split; [eapply begins_more; [exact HB|i_]|left; auto]|].
  split; [rewrite <- !app_assoc; apply begins_with; in_|]. right. split; [discriminate|]. intros t.
  destruct (take_more_types _ _ _ HC HB) as [T1 T2]. assert (HG : gapfree R) by (apply types_gapfree; eapply begins_more; [exact HB|i_]).
  pose proof (fun t => take_type col off inp t x (us ++ R) HX (pipe_gapfree _ T1)) as H1.
  cbn [map]. rewrite <- (app_nil_r (map (named T_RELTYPE) xs)). generalize dependent (map (named T_RELTYPE) xs). intros ts T2.
  open_ (us ++ R) c2 r2 E2 K2; [apply pipe_gapfree, T1|]. open_gap R HG.
  eapply (take_of col off inp (many [[]; B " `" ++ x ++ B "` " ++ c2 :: r2; r2] R') (effs [HNone; HNode (named T_RELTYPE x); HGrow 1 [0] ts])
    (fact_tab [(R_rel_type, [], FTake 1 [Ho 2 c2])] [([2], FTake 2 [Ho 9 c])]) 100 _ [Ho 1 ":"%char] t);
    [run_trun|reflexivity| |apply grow_ok; [reflexivity|run_grow]|nrm_; reflexivity|nrm_; reflexivity].
  hole_ ltac:(first [apply H1|apply T2]).
Qed.

(** ** Relationships *)
Lemma take_rel : forall r u R t, prints_rel r u -> takes t (PRule R_relationship_pattern) u (B " (" ++ R) (HNode (rel_term r)).
Proof.
  intros r u R t HP. destruct HP as [d a b HD|d x ts s p a b ux ut us up HD HX HT HS HP].
  - destruct d; cbn [heads In] in HD; repeat (destruct HD as [HD|HD]; [injection HD as <- <-|]); try contradiction.
    all: match goal with |- takes _ _ ?u _ _ =>
      eapply (take_of col off inp (many [] R) (effs []) (fact_tab [] []) 100 _ (map Kn (u ++ B " ") ++ [Ho 9 "("%char]) t) end;
      [run_trun|reflexivity| |apply node_ok; run_node|nrm_; reflexivity|nrm_; reflexivity].
    all: hole_ fail.
  - unfold rel_term. cbn [r_dir r_name r_types r_steps r_props].
    assert (HE : begins w_end (B "]" ++ b ++ B " (" ++ R)) by (apply begins_with; in_).
    destruct (opt_props _ _ _ HP HE) as (op & P0 & P1 & P2). rewrite P0. destruct (opt_steps _ _ _ HS P2) as (os & S0 & S1 & S2). rewrite S0.
    destruct (opt_types _ _ _ HT S2) as [T2 T1]. destruct (opt_name _ _ _ HX T2) as [N1 N2]. unfold opt_ident.
    assert (G2 : gapfree (ut ++ us ++ up ++ B "]" ++ b ++ B " (" ++ R)) by (apply types_gapfree, T2).
    assert (G3 : gapfree (us ++ up ++ B "]" ++ b ++ B " (" ++ R)) by (apply types_gapfree; eapply begins_more; [exact S2|i_]).
    assert (G4 : gapfree (up ++ B "]" ++ b ++ B " (" ++ R)) by (apply types_gapfree; eapply begins_more; [exact P2|i_]).
    assert (F1 : forall t, refuses t (PRule R_identifier) (ut ++ us ++ up ++ B "]" ++ b ++ B " (" ++ R)) by (eapply refuse_at; [|exact T2]; stop_).
    assert (F2 : forall t, refuses t (PRule R_rel_types) (us ++ up ++ B "]" ++ b ++ B " (" ++ R)) by (eapply refuse_at; [|exact S2]; stop_).
    assert (F3 : forall t, refuses t (PRule R_rel_varlength) (up ++ B "]" ++ b ++ B " (" ++ R)) by (eapply refuse_at; [|exact P2]; stop_).
    open_ (ux ++ ut ++ us ++ up ++ B "]" ++ b ++ B " (" ++ R) c1 r1 E1 K1; [exact N2|].
    open_ (ut ++ us ++ up ++ B "]" ++ b ++ B " (" ++ R) c2 r2 E2 K2; [exact G2|].
    open_ (us ++ up ++ B "]" ++ b ++ B " (" ++ R) c3 r3 E3 K3; [exact G3|].
    open_ (up ++ B "]" ++ b ++ B " (" ++ R) c4 r4 E4 K4; [exact G4|].
    assert (T3 : (map (named T_RELTYPE) ts = [] /\ ut = []) \/ (ut <> [] /\ forall t, takes t (PRule R_rel_types) ut (us ++ up ++ B "]" ++ b ++ B " (" ++ R) (HGrow 3 [] (map (named T_RELTYPE) ts)))).
    { destruct T1 as [[-> ->]|T1]; [left; auto|right; exact T1]. }
    clear T1 HX HT HS HP HE P0 P2 S0 S2 T2 G2 G3 G4 N2. generalize dependent (option_map (named T_IDENTIFIER) x). generalize dependent (map (named T_RELTYPE) ts).
    intros tys T1 ox N1. clear x ts s p.
    destruct T1 as [[-> ->]|[_ T1]].
    + destruct ox as [tx|], os as [to|], op as [tp|]; cbn [ForwardClause.opt_takes] in N1, S1, P1;
        try (destruct N1 as [-> N1]); try (destruct S1 as [-> S1]); try (destruct P1 as [-> P1]).
      all: destruct d; cbn [heads In] in HD; repeat (destruct HD as [HD|HD]; [injection HD as <- <-|]); try contradiction.
      all: match goal with |- takes _ _ (?a ++ _ ++ _ ++ _ ++ _ ++ _ ++ _ ++ ?b) _ (HNode (T _ [_; TNode ?ox; _; TNode ?op; TNode ?os])) =>
        let fin := constr:(map Kn (B "]" ++ b ++ B " ") ++ [Ho 9 "("%char]) in
        let w4 := constr:(match op with Some _ => [Ho 4 c4] | None => fin end) in
        let w3 := constr:(match os with Some _ => [Ho 3 c3] | None => w4 end) in
        let w1 := constr:(match ox with Some _ => [Ho 1 c1] | None => w3 end) in
        eapply (take_of col off inp (many [[]; r1; r2; r3; r4] R) (effs [HNone; opt_eff ox; HNone; opt_eff os; opt_eff op])
          (fact_tab [(R_identifier, [1], FTake 1 w3); (R_identifier, [], FFail); (R_rel_types, [], FFail);
             (R_rel_varlength, [3], FTake 3 w4); (R_rel_varlength, [], FFail); (R_pattern_properties, [], FTake 4 fin)] []) 200 _ (map Kn (a ++ B "[ ") ++ w1) t) end;
        [run_trun|reflexivity| |apply node_ok; run_node|nrm_; reflexivity|nrm_; reflexivity].
      all: hole_ ltac:(first [apply N1|apply S1|apply P1|apply F1|apply F2|apply F3]).
    + rewrite <- (app_nil_r tys).
      destruct ox as [tx|], os as [to|], op as [tp|]; cbn [ForwardClause.opt_takes] in N1, S1, P1;
        try (destruct N1 as [-> N1]); try (destruct S1 as [-> S1]); try (destruct P1 as [-> P1]).
      all: destruct d; cbn [heads In] in HD; repeat (destruct HD as [HD|HD]; [injection HD as <- <-|]); try contradiction.
      all: match goal with |- takes _ _ (?a ++ _ ++ _ ++ _ ++ _ ++ _ ++ _ ++ ?b) _ (HNode (T _ [_; TNode ?ox; _; TNode ?op; TNode ?os])) =>
        let fin := constr:(map Kn (B "]" ++ b ++ B " ") ++ [Ho 9 "("%char]) in
        let w4 := constr:(match op with Some _ => [Ho 4 c4] | None => fin end) in
        let w3 := constr:(match os with Some _ => [Ho 3 c3] | None => w4 end) in
        let w1 := constr:(match ox with Some _ => [Ho 1 c1] | None => [Ho 2 c2] end) in
        eapply (take_of col off inp (many [[]; r1; r2; r3; r4] R) (effs [HNone; opt_eff ox; HGrow 3 [] tys; opt_eff os; opt_eff op])
          (fact_tab [(R_identifier, [1], FTake 1 [Ho 2 c2]); (R_identifier, [], FFail); (R_rel_types, [], FTake 2 w3);
             (R_rel_varlength, [3], FTake 3 w4); (R_rel_varlength, [], FFail); (R_pattern_properties, [], FTake 4 fin)] []) 200 _ (map Kn (a ++ B "[ ") ++ w1) t) end;
        [run_trun|reflexivity| |apply node_ok; run_node|nrm_; reflexivity|nrm_; reflexivity].
      all: hole_ ltac:(first [apply N1|apply T1|apply S1|apply P1|apply F1|apply F2|apply F3]).
Qed.

(** ** Paths *)
Definition link1 : cexp := PRule R_sp ⋅ bind 1 R_relationship_pattern ⋅ PRule R_sp ⋅ bind 0 R_node_pattern ⋅
  PAct (TDo [SSeqAdd (AVar 1); SSeqAdd (AVar 0)]).
Lemma node_paren : forall n u, prints_node n u -> exists u', u = B "( " ++ u'.
Proof. intros n u [x ls p ux ul up]. eauto. Qed.
Lemma rel_gapfree : forall r u R, prints_rel r u -> gapfree (u ++ R).
Proof.
  intros r u R HP. destruct HP as [d a b HD|d x ts s p a b ux ut us up HD HX HT HS HP];
    destruct d; cbn [heads In] in HD; repeat (destruct HD as [HD|HD]; [injection HD as <- <-; gapchar|]); contradiction.
Qed.
Lemma take_link : forall l u R t, prints_link l u -> R <> [] -> takes t link1 u R (HGrow 2 [1; 0] [rel_term (fst l); node_term (snd l)]).
Proof.
  intros l u R t HP HR. destruct HP as [r n ur un HP HN]. destruct (node_paren _ _ HN) as [un' HU]. cbn [fst snd].
  pose proof (fun t => take_node n un R t HN HR) as H2.
  pose proof (fun t => take_rel r ur (B " " ++ un' ++ R) t HP) as H1. destruct R as [|c R]; [contradiction|]. subst un.
  open_ (ur ++ B " ( " ++ un' ++ c :: R) c1 r1 E1 K1; [apply (rel_gapfree r), HP|].
  eapply (take_of col off inp (many [[]; r1; B " " ++ un' ++ c :: R] R) (effs [HNone; HNode (rel_term r); HNode (node_term n)])
    (fact_tab [(R_relationship_pattern, [], FTake 1 [Kn " "%char; Ho 2 "("%char]); (R_node_pattern, [], FTake 2 [Ho 9 c])] []) 100 _ [Kn " "%char; Ho 1 c1] t);
    [run_trun|reflexivity| |apply grow_ok; [reflexivity|run_grow]|nrm_; reflexivity|nrm_; reflexivity].
  hole_ ltac:(first [apply H1|apply H2]).
Qed.
Lemma refuse_end : forall e ws R, Forall (dead_end e) ws -> begins ws R -> forall t, refuses t e R.
Proof.
  intros e ws R H (w & R' & HI & ->) t. rewrite Forall_forall in H. destruct (H w HI) as (HN & HS). destruct (HS t) as (t' & obs & H1 & H2 & H3).
  rewrite <- (word_text w R' HN). eapply (refuse_of col off inp (many [] R') (effs [])); [exact H1|exact H2|].
  eapply Forall_impl; [|exact H3]. intros o (HL & t1 & ->). apply ob_sp. text_. left. exists (last w " "%char), R'. split; [reflexivity|].
  intros HI'. apply HL. cbn in HI' |- *. tauto.
Qed.
Ltac dead_ := repeat (apply Forall_cons; [split; [discriminate|intros; eexists; eexists; split; [run_fail|split; [reflexivity|repeat (apply Forall_cons; [split; [cbn; intuition discriminate|eexists; reflexivity]|]); apply Forall_nil]]]|]); apply Forall_nil.
Lemma no_link : forall t R, begins w_path R -> refuses t link1 R.
Proof. intros t R HB. revert t. eapply refuse_end; [|exact HB]. unfold w_path. cbn [map w_item w_order w_skip w_limit w_where w_after clause_words app]. dead_. Qed.
Lemma path_nonempty : forall R, begins w_path R -> R <> [].
Proof.
  intros R (w & R' & [<-|[<-|H]] & ->); [discriminate|discriminate|]. apply in_map_iff in H. destruct H as (w' & <- & _). discriminate.
Qed.
Lemma take_links : forall ls us R, chained prints_link ls us -> begins w_path R ->
  forall t, takes t (PStar link1) us R (HGrow 2 [1; 0] (flat_map (fun x => [rel_term (fst x); node_term (snd x)]) ls)).
Proof.
  intros ls us R H HB. pose proof (path_nonempty _ HB) as HN. induction H as [|x u xs us HP H IH]; intros t.
  - apply star_none. apply no_link, HB.
  - apply (star_more col off inp t _ u us R 2 [1; 0] [rel_term (fst x); node_term (snd x)] _); [|apply IH].
    apply take_link; [exact HP|]. destruct us; [exact HN|discriminate].
Qed.
Lemma take_path : forall n ls u R t, prints_path n ls u -> begins w_path R -> takes t (PRule R_pattern_path) u R (HNode (path_term n ls)).
Proof.
  intros n ls u R t HP HB. destruct HP as [n ls un us HN HL]. destruct (node_paren _ _ HN) as [un' HU].
  pose proof (take_links _ _ _ HL HB) as H2. pose proof (path_nonempty _ HB) as HR.
  assert (HR' : us ++ R <> []) by (destruct us; [exact HR|discriminate]).
  pose proof (fun t => take_node n un (us ++ R) t HN HR') as H1. unfold path_term.
  rewrite <- (app_nil_r (flat_map _ _)). generalize dependent (flat_map (fun x => [rel_term (fst x); node_term (snd x)]) ls). intros ts H2. subst un.
  destruct (us ++ R) as [|c2 r2] eqn:E2; [contradiction|]. destruct R as [|c R]; [contradiction|].
  eapply (take_of col off inp (many [[]; B " " ++ un' ++ c2 :: r2; r2] R) (effs [HNone; HNode (node_term n); HGrow 2 [1; 0] ts])
    (fact_tab [(R_node_pattern, [], FTake 1 [Ho 2 c2])] [([2], FTake 2 [Ho 9 c])]) 100 _ [Ho 1 "("%char] t);
    [run_trun|reflexivity| |apply node_ok; run_node|nrm_; reflexivity|nrm_; reflexivity].
  hole_ ltac:(first [apply H1|apply H2]).
Qed.

(** ** Parts of a pattern *)
Lemma part_element : element R_pattern_part prints_part part_term (begins w_path).
Proof.
  intros p u R HP HB. destruct HP as [x s n ls ux u HX HP].
  assert (HU : exists u', u = B "( " ++ u') by (destruct HP as [n ls un us HN HL]; destruct (node_paren _ _ HN) as [un' ->]; eauto using app_assoc).
  destruct HU as [u' HU].
  assert (HT : begins w_path (shape_tail s ++ R)).
  { destruct s; cbn [shape_tail]; [exact HB|exists (B " )"), R; split; [in_|reflexivity]|exists (B " )"), R; split; [in_|reflexivity]]. }
  pose proof (fun t => take_path n ls u _ t HP HT) as H1.
  split; [destruct HX as [|x v (v' & [x' HV] & ->)]; [|discriminate]; destruct s; rewrite ?HU; discriminate|].
  split; [destruct HX as [|x v (v' & [x' HV] & ->)]; [|gapchar]; destruct s; rewrite ?HU; gapchar|].
  intros t. unfold part_term. cbn [pt_name pt_shape pt_node pt_links]. destruct R as [|c R]; [destruct (path_nonempty _ HB eq_refl)|]. subst u.
  generalize dependent (path_term n ls). intros tm H1.
  destruct HX as [|x v (v' & [x' HV] & ->)].
  - destruct s; cbn [shape_head shape_tail shape_term] in *.
    + eapply (take_of col off inp (many [[]; B " " ++ u' ++ c :: R] R) (effs [HNone; HNode tm])
        (fact_tab [(R_pattern_path, [], FTake 1 [Ho 9 c])] []) 100 _ [Ho 1 "("%char] t);
        [run_trun|reflexivity| |apply node_ok; run_node|nrm_; reflexivity|nrm_; reflexivity].
      hole_ ltac:(first [apply H1]).
    + eapply (take_of col off inp (many [[]; B " " ++ u' ++ B " )" ++ c :: R] R) (effs [HNone; HNode tm])
        (fact_tab [(R_pattern_path, [], FTake 1 (map Kn (B " )") ++ [Ho 9 c]))] []) 100 _ (map Kn (B "shortestPath ( ") ++ [Ho 1 "("%char]) t);
        [run_trun|reflexivity| |apply node_ok; run_node|nrm_; reflexivity|nrm_; reflexivity].
      hole_ ltac:(first [apply H1]).
    + eapply (take_of col off inp (many [[]; B " " ++ u' ++ B " )" ++ c :: R] R) (effs [HNone; HNode tm])
        (fact_tab [(R_pattern_path, [], FTake 1 (map Kn (B " )") ++ [Ho 9 c]))] []) 100 _ (map Kn (B "allShortestPaths ( ") ++ [Ho 1 "("%char]) t);
        [run_trun|reflexivity| |apply node_ok; run_node|nrm_; reflexivity|nrm_; reflexivity].
      hole_ ltac:(first [apply H1]).
  - pose proof (fun R t => take_name col off inp t x' (B "= " ++ R) HV ltac:(gapchar)) as H2.
    destruct s; cbn [shape_head shape_tail shape_term] in *.
    + eapply (take_of col off inp (many [[]; B " " ++ u' ++ c :: R; x' ++ B "` = ( " ++ u' ++ c :: R] R) (effs [HNone; HNode tm; HNode (named T_IDENTIFIER x')])
        (fact_tab [(R_pattern_path, [], FTake 1 [Ho 9 c]); (R_identifier, [2], FTake 2 (map Kn (B "= ") ++ [Ho 1 "("%char]))] []) 100 _ [Ho 2 "`"%char] t);
        [run_trun|reflexivity| |apply node_ok; run_node|nrm_; reflexivity|nrm_; reflexivity].
      hole_ ltac:(first [apply H1|apply H2]).
    + eapply (take_of col off inp (many [[]; B " " ++ u' ++ B " )" ++ c :: R; x' ++ B "` = shortestPath ( ( " ++ u' ++ B " )" ++ c :: R] R) (effs [HNone; HNode tm; HNode (named T_IDENTIFIER x')])
        (fact_tab [(R_pattern_path, [], FTake 1 (map Kn (B " )") ++ [Ho 9 c])); (R_identifier, [2], FTake 2 (map Kn (B "= shortestPath ( ") ++ [Ho 1 "("%char]))] []) 100 _ [Ho 2 "`"%char] t);
        [run_trun|reflexivity| |apply node_ok; run_node|nrm_; reflexivity|nrm_; reflexivity].
      hole_ ltac:(first [apply H1|apply H2]).
    + eapply (take_of col off inp (many [[]; B " " ++ u' ++ B " )" ++ c :: R; x' ++ B "` = allShortestPaths ( ( " ++ u' ++ B " )" ++ c :: R] R) (effs [HNone; HNode tm; HNode (named T_IDENTIFIER x')])
        (fact_tab [(R_pattern_path, [], FTake 1 (map Kn (B " )") ++ [Ho 9 c])); (R_identifier, [2], FTake 2 (map Kn (B "= allShortestPaths ( ") ++ [Ho 1 "("%char]))] []) 100 _ [Ho 2 "`"%char] t);
        [run_trun|reflexivity| |apply node_ok; run_node|nrm_; reflexivity|nrm_; reflexivity].
      hole_ ltac:(first [apply H1|apply H2]).
Qed.
End Pattern.
