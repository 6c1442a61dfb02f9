(** * What the rules of the hints of MATCH, and of START, take *)
From Coq Require Import List Bool Arith Ascii String ZArith Lia Permutation.
From Verif Require Import Peg PegProofs PegThunks QuickModel QuickSpec QuickProofs CypherSyntax CypherGrammar OperModel ErrModel
  CypherMatch AstTypes AstModel CypherBuild CypherExec CypherParse CypherRun CypherRound CypherSpec
  NodeFacts NodeHeld FlowSound FlowRun SafeProofs TraceSpec TraceProofs LexSpec LexProofs TermSpec Forward ForwardExec ForwardLex
  ForwardStep ForwardAtom ForwardExpr ForwardName ForwardNum ForwardPat ForwardForm ExprSpec ForwardPrint StmtSpec ForwardStmt ForwardClause
  ForwardItem ForwardPattern.
Import ListNotations.
Open Scope peg_scope.
Opaque parse_one cfuel.
Strategy expand [crun].

Section Hints.
Variables (col : coloring) (off : position) (inp : bytes).
Notation runc := (run CG (get_of inp) (cprun col off)).
Notation cst := (pst action cuser).
Notation performs := (performs inp).
Notation takes := (takes col off inp).
Notation refuses := (refuses col off inp).
Notation element := (element col off inp).

(** ** Hints *)
Definition w_hints : list bytes := B "USING " :: w_where.
Lemma hints_item : incl w_hints w_item.
Proof. intros w [<-|H]; [in_|]. do 6 right. exact H. Qed.
Lemma ident_element : element R_identifier prints_name (named T_IDENTIFIER) (begins w_item).
Proof.
  intros x u R HP HB. destruct HP as [x HX]. split; [discriminate|]. split; [apply name_gapfree|]. intros t.
  apply take_name; [exact HX|]. exact (closer_gapfree _ (begins_closer _ HB)).
Qed.
Ltac gap_ := left; eexists; eexists; split; [reflexivity|cbn [In]; intuition discriminate].
Lemma mhint_element : element R_hint prints_mhint mhint_term (begins w_hints).
Proof.
  intros h u R HP HB. assert (HG : gapfree R) by (eapply after_gap; [exact HB|exact hints_item]).
  split; [destruct HP; discriminate|]. split; [destruct HP; gap_|]. intros t.
  destruct HP as [x l p HX HL HP|x l HX HL|xs u HL].
  - pose proof (fun t => take_name col off inp t x (B ": " ++ name_text l ++ B "( " ++ name_text p ++ B ") " ++ R) HX ltac:(gap_)) as H1.
    pose proof (fun t => take_label col off inp t l (B "( " ++ name_text p ++ B ") " ++ R) HL ltac:(gap_)) as H2.
    pose proof (fun t => take_prop_name col off inp t p (B ") " ++ R) HP ltac:(gap_)) as H3.
    cbn [mhint_term]. open_gap R HG.
    eapply (take_of col off inp (many [[]; x ++ B "` : " ++ name_text l ++ B "( " ++ name_text p ++ B ") " ++ c :: R';
        B " " ++ name_text l ++ B "( " ++ name_text p ++ B ") " ++ c :: R'; p ++ B "` ) " ++ c :: R'] R')
      (effs [HNone; HNode (named T_IDENTIFIER x); HNode (named T_LABEL l); HNode (named T_PROP_NAME p)])
      (fact_tab [(R_identifier, [1], FTake 1 [Ho 2 ":"%char]); (R_label, [2], FTake 2 (map Kn (B "( ") ++ [Ho 3 "`"%char]));
        (R_prop_name, [3], FTake 3 (map Kn (B ") ") ++ [Ho 9 c]))] []) 200 _ (map Kn (B "USING INDEX ") ++ [Ho 1 "`"%char]) t);
    [run_trun|reflexivity| |apply node_ok; run_node|nrm_; reflexivity|nrm_; reflexivity].
    hole_ ltac:(first [apply H1|apply H2|apply H3]).
  - pose proof (fun t => take_name col off inp t x (B ": " ++ name_text l ++ R) HX ltac:(gap_)) as H1.
    pose proof (fun t => take_label col off inp t l R HL HG) as H2.
    cbn [mhint_term]. open_gap R HG.
    eapply (take_of col off inp (many [[]; x ++ B "` : " ++ name_text l ++ c :: R'; B " " ++ name_text l ++ c :: R'] R')
      (effs [HNone; HNode (named T_IDENTIFIER x); HNode (named T_LABEL l)])
      (fact_tab [(R_identifier, [1], FTake 1 [Ho 2 ":"%char]); (R_label, [2], FTake 2 [Ho 9 c])] []) 200 _ (map Kn (B "USING SCAN ") ++ [Ho 1 "`"%char]) t);
    [run_trun|reflexivity| |apply node_ok; run_node|nrm_; reflexivity|nrm_; reflexivity].
    hole_ ltac:(first [apply H1|apply H2]).
  - destruct (open_list col off inp _ R_identifier _ _ w_hints _ _ R HL ident_element) as (u1 & us & tm & ts & -> & HM & G1 & G2 & H1 & H2);
      [exact hints_item|exact HB|stop_|].
    cbn [mhint_term]. rewrite HM. rewrite <- (app_nil_r ts). specialize (H2 3 0).
    open_ (u1 ++ us ++ R) c1 r1 E1 K1; [exact G1|]. open_ (us ++ R) c5 r5 E5 K5; [exact G2|]. open_gap R HG.
    eapply (take_of col off inp (many [[]; r1; []; []; []; r5] R') (effs [HNone; HNode tm; HNone; HNone; HNone; HGrow 3 [0] ts])
      (fact_tab [(R_identifier, [1], FTake 1 [Ho 5 c5])] [([5], FTake 5 [Ho 9 c])]) 200 _ (map Kn (B "USING JOIN ON ") ++ [Ho 1 c1]) t);
    [run_trun|reflexivity| |apply node_ok; run_node|nrm_; reflexivity|nrm_; reflexivity].
    hole_ ltac:(first [apply H1|apply H2; in_]).
Qed.
Lemma hints_begin : forall hs uh R, chained prints_mhint hs uh -> begins w_where R -> begins w_hints (uh ++ R).
Proof.
  intros hs uh R H HB. destruct H as [|h u hs us HP _]; [eapply begins_more; [exact HB|i_]|].
  destruct HP; rewrite <- ?app_assoc; eexists (B "USING "), _; (split; [in_|reflexivity]).
Qed.
Lemma take_mhints : forall hs uh R t, chained prints_mhint hs uh -> begins w_where R ->
  takes t (PStar (chain_of 1 R_hint)) uh R (HGrow 3 [1] (map mhint_term hs)).
Proof.
  intros hs uh R t H HB. assert (HG : gapfree R) by (eapply after_gap; [exact HB|i_]). revert t.
  eapply (chained_take col off inp); [in_|exact mhint_element| |exact H|eapply begins_more; [exact HB|i_]|exact (gapfree_nonempty _ HG)|].
  - intros x v R1 HX. destruct HX; rewrite <- ?app_assoc; eexists (B "USING "), _; (split; [in_|reflexivity]).
  - eapply refuse_at; [|exact HB]. stop_.
Qed.

(** ** Where START starts *)
Lemma take_index_name : forall t x R, plain_name x -> gapfree R -> takes t (PRule R_index_name) (name_text x) R (HNode (named T_INDEX_NAME x)).
Proof.
  intros t x R HX HG. open_gap R HG.
  eapply (take_of col off inp (many [x ++ ["`"%char]] R') (effs [HAppend x]) fact_name 60 _ [Ho 0 "`"%char; Kn " "%char; Ho 9 c]);
    [run_trun|reflexivity| |apply node_ok; run_node|unfold name_text; text_; reflexivity|text_; reflexivity].
  obs_ ltac:(eapply ob_take; [cbn [effs nth]; text_; apply take_backquoted; assumption|text_; reflexivity]).
Qed.
Lemma take_parameter : forall t x R, plain_name x -> gapfree R -> takes t (PRule R_parameter) (B "$" ++ name_text x) R (HNode (ex_term (EParam x))).
Proof.
  intros t x R HX HG. cbn [ex_term]. open_gap R HG.
  eapply (take_of col off inp (many [x ++ ["`"%char]] R') (effs [HAppend x]) fact_name 60 _ [Kn "$"%char; Ho 0 "`"%char; Kn " "%char; Ho 9 c]);
    [run_trun|reflexivity| |apply node_ok; run_node|unfold name_text; text_; reflexivity|text_; reflexivity].
  obs_ ltac:(eapply ob_take; [cbn [effs nth]; text_; apply take_backquoted; assumption|text_; reflexivity]).
Qed.
(** the key of an index: which rule takes it, and how it begins *)
Lemma take_lookup : forall k u R, prints_lookup k u -> gapfree R -> exists r c u1, In (r, c) [(R_string_literal, "'"%char); (R_string_literal, """"%char); (R_parameter, "$"%char)] /\
  u = c :: u1 /\ forall t, takes t (PRule r) u R (HNode (lookup_term k)).
Proof.
  intros k u R HP HG. destruct HP as [u v HQ|v HV].
  - pose proof HQ as (q & body & Q1 & E & _). exists R_string_literal, q, (body ++ [q] ++ B " ").
    split; [destruct Q1 as [-> | ->]; in_|]. split; [rewrite E; cbn; rewrite <- app_assoc; reflexivity|].
    intros t. apply take_string_literal; assumption.
  - exists R_parameter, "$"%char, (name_text v). split; [in_|]. split; [reflexivity|]. intros t. apply take_parameter; assumption.
Qed.
Lemma id_element : element R_integer_literal prints_id (named T_INTEGER) (begins w_item).
Proof.
  intros x u R HP HB. destruct HP as [x HX]. split; [destruct x; discriminate|].
  split; [rewrite <- app_assoc; apply digits_gapfree, HX|]. intros t. apply take_integer; [exact HX|exact (closer_gapfree _ (begins_closer _ HB))].
Qed.
Lemma take_ids : forall vs u R t, listed prints_id vs u -> takes t (PRule R_node_ids) u (B ")" ++ R) (HGrow 4 [] (map (named T_INTEGER) vs)).
Proof.
  intros vs u R t HL. assert (HB : begins [B ")"] (B ")" ++ R)) by (apply begins_with; in_).
  destruct (open_list col off inp _ R_integer_literal _ _ [B ")"] _ _ (B ")" ++ R) HL id_element) as (u1 & us & tm & ts & -> & HM & G1 & G2 & H1 & H2);
    [intros w [<-|[]]; unfold w_item, w_order, w_skip, w_limit, w_where, w_after, clause_words; cbn [app]; in_|exact HB|stop_|].
  rewrite HM. rewrite <- (app_nil_r ts). specialize (H2 1 0).
  open_ (u1 ++ us ++ B ")" ++ R) c1 r1 E1 K1; [exact G1|]. open_ (us ++ B ")" ++ R) c5 r5 E5 K5; [exact G2|].
  eapply (take_of col off inp (many [[]; r1; []; []; []; r5] R) (effs [HNone; HNode tm; HNone; HNone; HNone; HGrow 1 [0] ts])
    (fact_tab [(R_integer_literal, [1], FTake 1 [Ho 5 c5])] [([5], FTake 5 [Ho 9 ")"%char])]) 200 _ [Ho 1 c1] t);
    [run_trun|reflexivity| |apply grow_ok; [reflexivity|run_grow]|nrm_; reflexivity|nrm_; reflexivity].
  hole_ ltac:(first [apply H1|apply H2; in_]).
Qed.
Ltac point_words HW := cbn [source_words In] in HW; repeat (destruct HW as [HW|HW]; [subst|]); [..|contradiction].
Lemma take_spoint : forall x (r : bool) s w u R t, plain_name x -> In w (source_words r) -> prints_source s u -> gapfree R ->
  takes t (PRule R_start_point) (name_text x ++ B "= " ++ w ++ u) (B " " ++ R) (HNode (spoint_term (mksp x r s))).
Proof.
  intros x r s w u R t HX HW HS HG.
  assert (G0 : gapfree (B "= " ++ w ++ u ++ B " " ++ R)) by gap_.
  pose proof (fun t => take_name col off inp t x _ HX G0) as H1. unfold spoint_term. cbn [sp_name sp_rel sp_source].
  destruct HS as [i p k u HI HP HK|i k u HI HK|vs u HL|].
  - pose proof (fun t => take_index_name t i (B "( " ++ name_text p ++ B "= " ++ u ++ B ")" ++ B " " ++ R) HI ltac:(gap_)) as H2.
    pose proof (fun t => take_prop_name col off inp t p (B "= " ++ u ++ B ")" ++ B " " ++ R) HP ltac:(gap_)) as H3.
    destruct (take_lookup k u (B ")" ++ B " " ++ R) HK ltac:(gap_)) as (rk & ck & u1 & HR & -> & H4).
    generalize dependent (lookup_term k). intros tk H4. destruct r; point_words HW.
    all: cbn [In] in HR; repeat (destruct HR as [HR|HR]; [injection HR as <- <-|]); [..|contradiction].
    all: match goal with |- takes _ _ (_ ++ _ ++ ?w ++ _ ++ _ ++ _ ++ _ ++ _ ++ (?ck :: _) ++ _) _ _ =>
      match type of H4 with forall t, takes t (PRule ?rk) _ _ _ =>
      eapply (take_of col off inp (many [[]; x ++ B "` = " ++ w ++ B ": " ++ name_text i ++ B "( " ++ name_text p ++ B "= " ++ (ck :: u1) ++ B ") " ++ R;
          i ++ B "` ( " ++ name_text p ++ B "= " ++ (ck :: u1) ++ B ") " ++ R; p ++ B "` = " ++ (ck :: u1) ++ B ") " ++ R; u1 ++ B ") " ++ R] R)
        (effs [HNone; HNode (named T_IDENTIFIER x); HNode (named T_INDEX_NAME i); HNode (named T_PROP_NAME p); HNode tk])
        (fact_tab [(R_identifier, [1], FTake 1 (map Kn (B "= " ++ w ++ B ": ") ++ [Ho 2 "`"%char])); (R_index_name, [2], FTake 2 (map Kn (B "( ") ++ [Ho 3 "`"%char]));
          (R_prop_name, [3], FTake 3 (map Kn (B "= ") ++ [Ho 4 ck])); (rk, [4], FTake 4 [Kn ")"%char; Ho 9 " "%char])] []) 200 _ [Ho 1 "`"%char] t) end end;
      [run_trun|reflexivity| |apply node_ok; run_node|nrm_; reflexivity|nrm_; reflexivity].
    all: hole_ ltac:(first [apply H1|apply H2|apply H3|apply H4]).
  - pose proof (fun t => take_index_name t i (B "( " ++ u ++ B ")" ++ B " " ++ R) HI ltac:(gap_)) as H2.
    destruct (take_lookup k u (B ")" ++ B " " ++ R) HK ltac:(gap_)) as (rk & ck & u1 & HR & -> & H4).
    generalize dependent (lookup_term k). intros tk H4. destruct r; point_words HW.
    all: cbn [In] in HR; repeat (destruct HR as [HR|HR]; [injection HR as <- <-|]); [..|contradiction].
    all: match goal with |- takes _ _ (_ ++ _ ++ ?w ++ _ ++ _ ++ _ ++ (?ck :: _) ++ _) _ _ =>
      match type of H4 with forall t, takes t (PRule ?rk) _ _ _ =>
      eapply (take_of col off inp (many [[]; x ++ B "` = " ++ w ++ B ": " ++ name_text i ++ B "( " ++ (ck :: u1) ++ B ") " ++ R;
          i ++ B "` ( " ++ (ck :: u1) ++ B ") " ++ R; []; u1 ++ B ") " ++ R] R)
        (effs [HNone; HNode (named T_IDENTIFIER x); HNode (named T_INDEX_NAME i); HNone; HNode tk])
        (fact_tab [(R_identifier, [1], FTake 1 (map Kn (B "= " ++ w ++ B ": ") ++ [Ho 2 "`"%char])); (R_index_name, [2], FTake 2 (map Kn (B "( ") ++ [Ho 4 ck]));
          (rk, [4], FTake 4 [Kn ")"%char; Ho 9 " "%char])] []) 200 _ [Ho 1 "`"%char] t) end end;
      [run_trun|reflexivity| |apply node_ok; run_node|nrm_; reflexivity|nrm_; reflexivity].
    all: hole_ ltac:(first [apply H1|apply H2|apply H4]).
  - pose proof (fun t => take_ids vs u (B " " ++ R) t HL) as H2.
    assert (G2 : gapfree (u ++ B ")" ++ B " " ++ R)).
    { destruct HL as [v u vs us HV _]. destruct HV as [v HV]. rewrite <- !app_assoc. apply digits_gapfree, HV. }
    rewrite <- (app_nil_r (map (named T_INTEGER) vs)).
    generalize dependent (map (named T_INTEGER) vs). intros ts H2.
    open_ (u ++ B ")" ++ B " " ++ R) c2 r2 E2 K2; [exact G2|]. destruct r; point_words HW.
    all: match goal with |- takes _ _ (_ ++ _ ++ ?w ++ _) _ _ =>
      eapply (take_of col off inp (many [[]; x ++ B "` = " ++ w ++ B "( " ++ u ++ B ") " ++ R; r2] R)
        (effs [HNone; HNode (named T_IDENTIFIER x); HGrow 4 [] ts])
        (fact_tab [(R_identifier, [1], FTake 1 (map Kn (B "= " ++ w ++ B "( ") ++ [Ho 2 c2])); (R_node_ids, [2], FTake 2 [Kn ")"%char; Ho 9 " "%char])] []) 200 _ [Ho 1 "`"%char] t) end;
      [run_trun|reflexivity| |apply node_ok; run_node|nrm_; reflexivity|nrm_; reflexivity].
    all: hole_ ltac:(first [apply H1|apply H2]).
  - destruct r; point_words HW.
    all: match goal with |- takes _ _ (_ ++ _ ++ ?w ++ _) _ _ =>
      eapply (take_of col off inp (many [[]; x ++ B "` = " ++ w ++ B "( * ) " ++ R] R)
        (effs [HNone; HNode (named T_IDENTIFIER x)])
        (fact_tab [(R_identifier, [1], FTake 1 (map Kn (B "= " ++ w ++ B "( * )") ++ [Ho 9 " "%char]))] []) 200 _ [Ho 1 "`"%char] t) end;
      [run_trun|reflexivity| |apply node_ok; run_node|nrm_; reflexivity|nrm_; reflexivity].
    all: hole_ ltac:(first [apply H1]).
Qed.

(** ** START *)
Ltac dead_ := repeat (apply Forall_cons; [split; [discriminate|intros; eexists; eexists; split; [run_fail|split; [reflexivity|repeat (apply Forall_cons; [split; [cbn; intuition discriminate|eexists; reflexivity]|]); apply Forall_nil]]]|]); apply Forall_nil.
Definition more_point : cexp := PRule R_COMMA ⋅ PRule R_sp ⋅ bind 0 R_start_point ⋅ PRule R_sp ⋅ PAct (TDo [SSeqAdd (AVar 0)]).
Lemma no_point : forall t R, begins w_where R -> refuses t more_point R.
Proof. intros t R HB. revert t. eapply refuse_end; [|exact HB]. unfold w_where, w_after, clause_words. cbn [app]. dead_. Qed.
Lemma one_point : forall t p u R, prints_spoint p u -> gapfree R -> takes t more_point (B ", " ++ u) R (HGrow 2 [0] [spoint_term p]).
Proof.
  intros t p u R HP HG. destruct HP as [x r s w u HX HW HS].
  pose proof (fun t => take_spoint x r s w u R t HX HW HS HG) as H1. generalize dependent (spoint_term (mksp x r s)). intros tm H1. open_gap R HG.
  eapply (take_of col off inp (many [[]; x ++ B "` = " ++ w ++ u ++ B " " ++ c :: R'] R') (effs [HNone; HNode tm])
    (fact_tab [(R_start_point, [1], FTake 1 [Kn " "%char; Ho 9 c])] []) 60 _ (map Kn (B ", ") ++ [Ho 1 "`"%char]) t);
    [run_trun|reflexivity| |apply grow_ok; [reflexivity|run_grow]|nrm_; reflexivity|nrm_; reflexivity].
  hole_ ltac:(first [apply H1]).
Qed.
Lemma take_points : forall ps us R t, commas prints_spoint ps us -> begins w_where R -> takes t (PStar more_point) us R (HGrow 2 [0] (map spoint_term ps)).
Proof.
  intros ps us R t H HB. assert (HG : gapfree R) by (eapply after_gap; [exact HB|i_]). revert t.
  induction H as [|x u xs us HP H IH]; intros t.
  - apply star_none, no_point, HB.
  - cbn [map]. apply (star_more col off inp t _ (B ", " ++ u) us R 2 [0] [spoint_term x] (map spoint_term xs)); [|apply IH].
    apply one_point; [exact HP|]. destruct H; [exact HG|gap_].
Qed.
Lemma take_start : forall ps w u uw R t, listed prints_spoint ps u -> maybe (B "WHERE ") (prints 0) w uw -> begins w_after R ->
  takes t (PRule R_clause) (B "START " ++ u ++ uw) R (HNode (clause_term (Start ps w))).
Proof.
  intros ps w u uw R t HL HW HB. assert (HG : gapfree R) by (eapply after_gap; [exact HB|i_]).
  destruct (opt_where col off inp w uw R HW HB) as [HO HC].
  assert (GW : gapfree (uw ++ R)) by (eapply after_gap; [exact HO|i_]).
  destruct HL as [p u ps us HP HM]. pose proof (fun t => take_points ps us _ t HM HO) as H2.
  assert (G2 : gapfree (us ++ uw ++ R)) by (destruct HM; [exact GW|gap_]).
  destruct HP as [x r s w' u HX HW' HS].
  pose proof (fun t => take_spoint x r s w' u _ t HX HW' HS G2) as H1. cbn [clause_term map].
  rewrite <- (app_nil_r (map spoint_term ps)). generalize dependent (map spoint_term ps). intros ts H2.
  generalize dependent (spoint_term (mksp x r s)). intros tm H1.
  open_ (us ++ uw ++ R) c5 r5 E5 K5; [exact G2|]. destruct w as [e|].
  - destruct HC as (u2 & -> & G3 & _ & H3). open_ (u2 ++ R) c2 r2 E2 K2; [exact G3|]. open_gap R HG.
    eapply (take_of col off inp (many [[]; x ++ B "` = " ++ w' ++ u ++ B " " ++ c5 :: r5; r2; []; []; r5] R')
      (effs [HNone; HNode tm; HNode (ex_term e); HNone; HNone; HGrow 2 [0] ts])
      (fact_tab [(R_start_point, [1], FTake 1 [Kn " "%char; Ho 5 c5]); (R_expression, [2], FTake 2 [Ho 9 c])]
        [([5], FTake 5 (map Kn (B "WHERE ") ++ [Ho 2 c2]))]) 200 _ (map Kn (B "START ") ++ [Ho 1 "`"%char]) t);
    [run_trun|reflexivity| |apply node_ok; run_node|nrm_; reflexivity|nrm_; reflexivity].
    hole_ ltac:(first [apply H1|apply H2|apply H3]).
  - destruct HC as (-> & H3). cbn [app] in *. open_gap R HG.
    eapply (take_of col off inp (many [[]; x ++ B "` = " ++ w' ++ u ++ B " " ++ c5 :: r5; []; []; []; r5] R')
      (effs [HNone; HNode tm; HNone; HNone; HNone; HGrow 2 [0] ts])
      (fact_tab [(R_start_point, [1], FTake 1 [Kn " "%char; Ho 5 c5]); (R_WHERE, [9], FFail)]
        [([5], FTake 5 [Ho 9 c])]) 200 _ (map Kn (B "START ") ++ [Ho 1 "`"%char]) t);
    [run_trun|reflexivity| |apply node_ok; run_node|nrm_; reflexivity|nrm_; reflexivity].
    hole_ ltac:(first [apply H1|apply H2|apply H3]).
Qed.
End Hints.
