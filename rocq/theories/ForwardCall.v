(** * What the rule of CALL takes *)
From Coq Require Import List Bool Arith Ascii String ZArith Lia Permutation.
From Verif Require Import Peg PegProofs PegThunks QuickModel QuickSpec QuickProofs CypherSyntax CypherGrammar OperModel ErrModel
  CypherMatch AstTypes AstModel CypherBuild CypherExec CypherParse CypherRun CypherRound CypherSpec
  NodeFacts NodeHeld FlowSound FlowRun SafeProofs TraceSpec TraceProofs LexSpec LexProofs TermSpec Forward ForwardExec ForwardLex
  ForwardStep ForwardAtom ForwardExpr ForwardName ForwardNum ForwardPat ForwardForm ExprSpec ForwardPrint StmtSpec ForwardStmt ForwardClause
  ForwardItem ForwardPattern.
Import ListNotations.
Open Scope peg_scope.
Opaque parse_one cfuel.
Strategy expand [crun].

(** what can follow the name of a procedure *)
Definition w_call : list bytes := B "( " :: B "YIELD " :: w_where.

Definition not_proj (t : term) : bool := Bool.eqb (term_is t T_PROJECTION) false.
Definition call_tree (f : bytes) (ts ts' : list term) (w : option ex) : term :=
  T T_CALL [TNode (Some (named T_PROC_NAME f)); TList (take_while not_proj (ts ++ ts' ++ [])); TList (drop_while not_proj (ts ++ ts' ++ [])); opt_ex w].
Lemma ex_not_proj : forall e, not_proj (ex_term e) = true.
Proof. destruct e as [| | | | | | | | | | | | | | | |[]| | | | |]; reflexivity. Qed.
Lemma call_shape : forall f es ys w, clause_term (Call f es ys w) = call_tree f (map ex_term es) (map call_proj ys) w.
Proof.
  intros f es ys w. cbn [clause_term]. unfold call_tree. rewrite app_nil_r.
  assert (K : take_while not_proj (map ex_term es ++ map call_proj ys) = map ex_term es /\ drop_while not_proj (map ex_term es ++ map call_proj ys) = map call_proj ys).
  { induction es as [|e es [IH1 IH2]]; cbn [map app take_while drop_while]; [|rewrite ex_not_proj, IH1, IH2; auto].
    destruct ys as [|y ys]; split; reflexivity. }
  destruct K as [-> ->]. reflexivity.
Qed.

Section Call.
Variables (col : coloring) (off : position) (inp : bytes).
Notation runc := (run CG (get_of inp) (cprun col off)).
Notation cst := (pst action cuser).
Notation performs := (performs inp).
Notation takes := (takes col off inp).
Notation refuses := (refuses col off inp).
Notation element := (element col off inp).

Lemma call_gapfree : forall R, begins w_call R -> gapfree R.
Proof.
  intros R (w & R' & [<-|[<-|H]] & ->); [gapchar|gapchar|]. eapply after_gap; [exists w, R'; split; [exact H|reflexivity]|i_].
Qed.
Lemma take_proc : forall t x R, plain_name x -> begins w_call R ->
  takes t (PRule R_proc_name) (name_text x) R (HNode (named T_PROC_NAME x)).
Proof.
  intros t x R HX HB. pose proof (call_gapfree R HB) as HG.
  assert (H2 : forall t, refuses t (PRule R_DOT) R) by (eapply refuse_at; [|exact HB]; stop_).
  open_gap R HG.
  eapply (take_of col off inp (many [[]; x ++ B "`"] R') (effs [HNone; HAppend x])
    (fun e w => match e, w with
                | PRule R_symbolic_name, [Ho 1 _; Kn _; Ho 9 _] => FTake 1 (tl w)
                | PRule R_DOT, [Ho 9 _] => FFail
                | _, _ => tight nofact e w
                end) 60 _ [Ho 1 "`"%char; Kn " "%char; Ho 9 c] t);
    [run_trun|reflexivity| |apply node_ok; run_node|nrm_; reflexivity|nrm_; reflexivity].
  hole_ ltac:(first [apply H2|apply take_backquoted; exact HX]).
Qed.
Lemma yield_element : element R_proc_projection prints_call_proj call_proj (begins w_item).
Proof.
  intros p u R HP HB. destruct HP as [f x ux HF HX]. pose proof (closer_gapfree _ (begins_closer _ HB)) as HG.
  split; [discriminate|]. split; [gapchar|]. intros t. unfold call_proj. cbn [fst snd]. destruct HX as [|x ux HX].
  - assert (H2 : forall t, refuses t (PRule R_AS) R) by (apply (refuse_at col off inp R_AS w_item R); [stop_|exact HB]).
    pose proof (fun t => take_name col off inp t f R HF HG) as H1. open_gap R HG.
    eapply (take_of col off inp (many [[]; f ++ B "` " ++ c :: R'] R') (effs [HNone; HNode (named T_IDENTIFIER f)])
      (fact_tab [(R_identifier, [], FTake 1 [Ho 9 c]); (R_AS, [], FFail)] []) 100 _ [Ho 1 "`"%char] t);
      [run_trun|reflexivity| |apply node_ok; run_node|nrm_; reflexivity|nrm_; reflexivity].
    hole_ ltac:(first [apply H1|apply H2]).
  - destruct HX as [x HX]. pose proof (fun t => take_name col off inp t x R HX HG) as H2.
    pose proof (fun t => take_name col off inp t f (B "AS " ++ name_text x ++ R) HF ltac:(gapchar)) as H1. open_gap R HG.
    eapply (take_of col off inp (many [[]; f ++ B "` AS " ++ name_text x ++ c :: R'; x ++ B "` " ++ c :: R'] R') (effs [HNone; HNode (named T_IDENTIFIER f); HNode (named T_IDENTIFIER x)])
      (fact_tab [(R_identifier, [1], FTake 1 (map Kn (B "AS ") ++ [Ho 2 "`"%char])); (R_identifier, [2], FTake 2 [Ho 9 c])] []) 100 _ [Ho 1 "`"%char] t);
      [run_trun|reflexivity| |apply node_ok; run_node|nrm_; reflexivity|nrm_; reflexivity].
    hole_ ltac:(first [apply H1|apply H2]).
Qed.

(** the three parts that can be left out *)
Lemma opt_args : forall es ua R, prints_args es ua -> gapfree R ->
  (es = [] /\ (ua = [] \/ ua = B "( ) ")) \/
  exists u1 us tm ts, ua = B "( " ++ u1 ++ us ++ B ") " /\ map ex_term es = tm :: ts /\ gapfree (u1 ++ us ++ B ") " ++ R) /\ gapfree (us ++ B ") " ++ R) /\
    (forall t, takes t (PRule R_expression) u1 (us ++ B ") " ++ R) (HNode tm)) /\
    (forall t, takes t (PStar (comma_of 1 R_expression)) us (B ") " ++ R) (HGrow 4 [1] ts)).
Proof.
  intros es ua R H HG. destruct H as [| |es u HL]; [auto|auto|]. right.
  assert (HB : begins w_after (B ") " ++ R)) by (exists (B ")"), (B " " ++ R); split; [in_|reflexivity]).
  destruct (open_list col off inp _ R_expression _ _ w_after _ _ (B ") " ++ R) HL (expr_element col off inp)) as (u1 & us & tm & ts & -> & HM & G1 & G2 & H1 & H2);
    [i_|exact HB|stop_|].
  exists u1, us, tm, ts. split; [rewrite <- app_assoc; reflexivity|]. split; [exact HM|]. split; [exact G1|]. split; [exact G2|].
  split; [exact H1|]. intros t. apply H2. in_.
Qed.
Lemma opt_yield : forall ys uy R, maybe (B "YIELD ") (listed prints_call_proj) ys uy -> begins w_where R ->
  begins w_call (uy ++ R) /\
  ((ys = None /\ uy = []) \/
   exists l u1 us tm ts, ys = Some l /\ uy = B "YIELD " ++ u1 ++ us /\ map call_proj l = tm :: ts /\ gapfree (u1 ++ us ++ R) /\ gapfree (us ++ R) /\
    (forall t, takes t (PRule R_proc_projection) u1 (us ++ R) (HNode tm)) /\
    (forall t, takes t (PStar (comma_of 2 R_proc_projection)) us R (HGrow 4 [2] ts))).
Proof.
  intros ys uy R H HB. destruct H as [|l u HL].
  - split; [eapply begins_more; [exact HB|i_]|auto].
  - split; [exists (B "YIELD "), (u ++ R); split; [in_|rewrite <- app_assoc; reflexivity]|]. right.
    destruct (open_list col off inp _ R_proc_projection _ _ w_where _ _ R HL yield_element) as (u1 & us & tm & ts & -> & HM & G1 & G2 & H1 & H2);
      [i_|exact HB|stop_|].
    exists l, u1, us, tm, ts. do 5 (split; [solve [reflexivity|assumption]|]). split; [exact H1|]. intros t. apply H2. in_.
Qed.

Ltac call_of t rs es ta c4 t2 c5 t3 c R' f :=
  eapply (take_of col off inp (many rs R') (effs ([HNone; HNode (named T_PROC_NAME f)] ++ es))
    (fact_tab [(R_proc_name, [1], FTake 1 ta); (R_expression, [2], FTake 2 [Ho 4 c4]); (R_LEFT_PAREN, [9], FFail); (R_YIELD, [9], FFail); (R_WHERE, [9], FFail);
               (R_proc_projection, [3], FTake 3 [Ho 5 c5]); (R_expression, [6], FTake 6 [Ho 9 c])]
              [([4], FTake 4 (map Kn (B ") ") ++ t2)); ([5], FTake 5 t3)]) 200 _ (map Kn (B "CALL ") ++ [Ho 1 "`"%char]) t);
  [run_trun|reflexivity| |apply node_ok; run_node|nrm_; reflexivity|nrm_; reflexivity].
Lemma take_call : forall f es ys w ua uy uw R t, plain_name f -> prints_args es ua -> maybe (B "YIELD ") (listed prints_call_proj) ys uy ->
  maybe (B "WHERE ") (prints 0) w uw -> begins w_after R ->
  takes t (PRule R_clause) (B "CALL " ++ name_text f ++ ua ++ uy ++ uw) R (HNode (clause_term (Call f es (match ys with Some ys => ys | None => [] end) w))).
Proof.
  intros f es ys w ua uy uw R t HF HA HY HW HB. assert (HG : gapfree R) by (eapply after_gap; [exact HB|i_]).
  destruct (opt_where col off inp w uw R HW HB) as [HO HC].
  destruct (opt_yield ys uy (uw ++ R) HY HO) as [HO2 HC2]. pose proof (call_gapfree _ HO2) as G2.
  assert (HO3 : begins w_call (ua ++ uy ++ uw ++ R)).
  { destruct HA; [exact HO2|exists (B "( "), (B ") " ++ uy ++ uw ++ R); split; [in_|reflexivity]|].
    exists (B "( "), ((u ++ B ") ") ++ uy ++ uw ++ R). split; [in_|]. rewrite <- !app_assoc. reflexivity. }
  destruct (opt_args es ua (uy ++ uw ++ R) HA G2) as [[-> HC3]|(u1 & us1 & tm1 & ts1 & -> & HM1 & K1 & K2 & H1 & H2)].
  all: pose proof (fun t => take_proc t f _ HF HO3) as H0.
  all: assert (N1 : forall t, refuses t (PRule R_LEFT_PAREN) R) by (eapply refuse_at; [|exact HB]; stop_).
  all: assert (N2 : forall t, refuses t (PRule R_YIELD) R) by (eapply refuse_at; [|exact HB]; stop_).
  all: rewrite call_shape; rewrite ?HM1.
  all: destruct HC2 as [[-> ->]|(l & u2 & us2 & tm2 & ts2 & -> & -> & HM2 & K3 & K4 & H3 & H4)].
  all: try destruct HC3 as [-> | ->].
  all: rewrite ?HM2; cbn [map].
  all: destruct w as [e|]; [destruct HC as (u6 & -> & G6 & _ & H6); open_ (u6 ++ R) c6 r6 E6 K6; [exact G6|]|destruct HC as [-> N3]].
  all: cbn [app] in *.
  all: open_gap R HG.
  - call_of t ([[]; f ++ B "` " ++ B "WHERE " ++ u6 ++ c :: R'; []; []; []; []; r6]) ([HNone; HNone; HNone; HNone; HNode (ex_term e)]) ((map Kn (B "WHERE ") ++ [Ho 6 c6])) ("000"%char) ((map Kn (B "WHERE ") ++ [Ho 6 c6])) ("000"%char) ((map Kn (B "WHERE ") ++ [Ho 6 c6])) c R' f.
    hole_ ltac:(first [apply H0|apply H6]).
  - call_of t ([[]; f ++ B "` " ++ c :: R'; []; []; []; []; []]) ([HNone; HNone; HNone; HNone; HNone]) ([Ho 9 c]) ("000"%char) ([Ho 9 c]) ("000"%char) ([Ho 9 c]) c R' f.
    hole_ ltac:(first [apply H0|apply N1|apply N2|apply N3]).
  - call_of t ([[]; f ++ B "` " ++ B "( ) " ++ B "WHERE " ++ u6 ++ c :: R'; []; []; []; []; r6]) ([HNone; HNone; HNone; HNone; HNode (ex_term e)]) ((map Kn (B "( ) ") ++ (map Kn (B "WHERE ") ++ [Ho 6 c6]))) ("000"%char) ((map Kn (B "WHERE ") ++ [Ho 6 c6])) ("000"%char) ((map Kn (B "WHERE ") ++ [Ho 6 c6])) c R' f.
    hole_ ltac:(first [apply H0|apply H6]).
  - call_of t ([[]; f ++ B "` " ++ B "( ) " ++ c :: R'; []; []; []; []; []]) ([HNone; HNone; HNone; HNone; HNone]) ((map Kn (B "( ) ") ++ [Ho 9 c])) ("000"%char) ([Ho 9 c]) ("000"%char) ([Ho 9 c]) c R' f.
    hole_ ltac:(first [apply H0|apply N1|apply N2|apply N3]).
  - open_ (u2 ++ us2 ++ B "WHERE " ++ u6 ++ c :: R') c3 r3 E3 G3; [rewrite <- ?app_assoc in K3; exact K3|]. open_ (us2 ++ B "WHERE " ++ u6 ++ c :: R') c5 r5 E5 G5; [rewrite <- ?app_assoc in K4; exact K4|]. call_of t ([[]; f ++ B "` " ++ B "YIELD " ++ u2 ++ us2 ++ B "WHERE " ++ u6 ++ c :: R'; []; r3; []; r5; r6]) ([HNone; HNode tm2; HNone; HGrow 4 [2] ts2; HNode (ex_term e)]) ((map Kn (B "YIELD ") ++ [Ho 3 c3])) ("000"%char) ((map Kn (B "YIELD ") ++ [Ho 3 c3])) (c5) ((map Kn (B "WHERE ") ++ [Ho 6 c6])) c R' f.
    hole_ ltac:(first [apply H0|apply H3|apply H4|apply H6]).
  - open_ (u2 ++ us2 ++ c :: R') c3 r3 E3 G3; [rewrite <- ?app_assoc in K3; exact K3|]. open_ (us2 ++ c :: R') c5 r5 E5 G5; [rewrite <- ?app_assoc in K4; exact K4|]. call_of t ([[]; f ++ B "` " ++ B "YIELD " ++ u2 ++ us2 ++ c :: R'; []; r3; []; r5; []]) ([HNone; HNode tm2; HNone; HGrow 4 [2] ts2; HNone]) ((map Kn (B "YIELD ") ++ [Ho 3 c3])) ("000"%char) ((map Kn (B "YIELD ") ++ [Ho 3 c3])) (c5) ([Ho 9 c]) c R' f.
    hole_ ltac:(first [apply H0|apply H3|apply H4|apply N1|apply N2|apply N3]).
  - open_ (u2 ++ us2 ++ B "WHERE " ++ u6 ++ c :: R') c3 r3 E3 G3; [rewrite <- ?app_assoc in K3; exact K3|]. open_ (us2 ++ B "WHERE " ++ u6 ++ c :: R') c5 r5 E5 G5; [rewrite <- ?app_assoc in K4; exact K4|]. call_of t ([[]; f ++ B "` " ++ B "( ) " ++ B "YIELD " ++ u2 ++ us2 ++ B "WHERE " ++ u6 ++ c :: R'; []; r3; []; r5; r6]) ([HNone; HNode tm2; HNone; HGrow 4 [2] ts2; HNode (ex_term e)]) ((map Kn (B "( ) ") ++ (map Kn (B "YIELD ") ++ [Ho 3 c3]))) ("000"%char) ((map Kn (B "YIELD ") ++ [Ho 3 c3])) (c5) ((map Kn (B "WHERE ") ++ [Ho 6 c6])) c R' f.
    hole_ ltac:(first [apply H0|apply H3|apply H4|apply H6]).
  - open_ (u2 ++ us2 ++ c :: R') c3 r3 E3 G3; [rewrite <- ?app_assoc in K3; exact K3|]. open_ (us2 ++ c :: R') c5 r5 E5 G5; [rewrite <- ?app_assoc in K4; exact K4|]. call_of t ([[]; f ++ B "` " ++ B "( ) " ++ B "YIELD " ++ u2 ++ us2 ++ c :: R'; []; r3; []; r5; []]) ([HNone; HNode tm2; HNone; HGrow 4 [2] ts2; HNone]) ((map Kn (B "( ) ") ++ (map Kn (B "YIELD ") ++ [Ho 3 c3]))) ("000"%char) ((map Kn (B "YIELD ") ++ [Ho 3 c3])) (c5) ([Ho 9 c]) c R' f.
    hole_ ltac:(first [apply H0|apply H3|apply H4|apply N1|apply N2|apply N3]).
  - open_ (u1 ++ us1 ++ B ") " ++ B "WHERE " ++ u6 ++ c :: R') c2 r2 EE2 GG2; [rewrite <- ?app_assoc in K1; exact K1|]. open_ (us1 ++ B ") " ++ B "WHERE " ++ u6 ++ c :: R') c4 r4 EE4 GG4; [rewrite <- ?app_assoc in K2; exact K2|]. call_of t ([[]; f ++ B "` " ++ B "( " ++ u1 ++ us1 ++ B ") " ++ B "WHERE " ++ u6 ++ c :: R'; r2; []; r4; []; r6]) ([HNode tm1; HNone; HGrow 4 [1] ts1; HNone; HNode (ex_term e)]) ((map Kn (B "( ") ++ [Ho 2 c2])) (c4) ((map Kn (B "WHERE ") ++ [Ho 6 c6])) ("000"%char) ((map Kn (B "WHERE ") ++ [Ho 6 c6])) c R' f.
    hole_ ltac:(first [apply H0|apply H1|apply H2|apply H6]).
  - open_ (u1 ++ us1 ++ B ") " ++ c :: R') c2 r2 EE2 GG2; [rewrite <- ?app_assoc in K1; exact K1|]. open_ (us1 ++ B ") " ++ c :: R') c4 r4 EE4 GG4; [rewrite <- ?app_assoc in K2; exact K2|]. call_of t ([[]; f ++ B "` " ++ B "( " ++ u1 ++ us1 ++ B ") " ++ c :: R'; r2; []; r4; []; []]) ([HNode tm1; HNone; HGrow 4 [1] ts1; HNone; HNone]) ((map Kn (B "( ") ++ [Ho 2 c2])) (c4) ([Ho 9 c]) ("000"%char) ([Ho 9 c]) c R' f.
    hole_ ltac:(first [apply H0|apply H1|apply H2|apply N1|apply N2|apply N3]).
  - open_ (u2 ++ us2 ++ B "WHERE " ++ u6 ++ c :: R') c3 r3 E3 G3; [rewrite <- ?app_assoc in K3; exact K3|]. open_ (us2 ++ B "WHERE " ++ u6 ++ c :: R') c5 r5 E5 G5; [rewrite <- ?app_assoc in K4; exact K4|]. open_ (u1 ++ us1 ++ B ") " ++ B "YIELD " ++ u2 ++ us2 ++ B "WHERE " ++ u6 ++ c :: R') c2 r2 EE2 GG2; [rewrite <- ?app_assoc in K1; exact K1|]. open_ (us1 ++ B ") " ++ B "YIELD " ++ u2 ++ us2 ++ B "WHERE " ++ u6 ++ c :: R') c4 r4 EE4 GG4; [rewrite <- ?app_assoc in K2; exact K2|]. call_of t ([[]; f ++ B "` " ++ B "( " ++ u1 ++ us1 ++ B ") " ++ B "YIELD " ++ u2 ++ us2 ++ B "WHERE " ++ u6 ++ c :: R'; r2; r3; r4; r5; r6]) ([HNode tm1; HNode tm2; HGrow 4 [1] ts1; HGrow 4 [2] ts2; HNode (ex_term e)]) ((map Kn (B "( ") ++ [Ho 2 c2])) (c4) ((map Kn (B "YIELD ") ++ [Ho 3 c3])) (c5) ((map Kn (B "WHERE ") ++ [Ho 6 c6])) c R' f.
    hole_ ltac:(first [apply H0|apply H1|apply H2|apply H3|apply H4|apply H6]).
  - open_ (u2 ++ us2 ++ c :: R') c3 r3 E3 G3; [rewrite <- ?app_assoc in K3; exact K3|]. open_ (us2 ++ c :: R') c5 r5 E5 G5; [rewrite <- ?app_assoc in K4; exact K4|]. open_ (u1 ++ us1 ++ B ") " ++ B "YIELD " ++ u2 ++ us2 ++ c :: R') c2 r2 EE2 GG2; [rewrite <- ?app_assoc in K1; exact K1|]. open_ (us1 ++ B ") " ++ B "YIELD " ++ u2 ++ us2 ++ c :: R') c4 r4 EE4 GG4; [rewrite <- ?app_assoc in K2; exact K2|]. call_of t ([[]; f ++ B "` " ++ B "( " ++ u1 ++ us1 ++ B ") " ++ B "YIELD " ++ u2 ++ us2 ++ c :: R'; r2; r3; r4; r5; []]) ([HNode tm1; HNode tm2; HGrow 4 [1] ts1; HGrow 4 [2] ts2; HNone]) ((map Kn (B "( ") ++ [Ho 2 c2])) (c4) ((map Kn (B "YIELD ") ++ [Ho 3 c3])) (c5) ([Ho 9 c]) c R' f.
    hole_ ltac:(first [apply H0|apply H1|apply H2|apply H3|apply H4|apply N1|apply N2|apply N3]).
Qed.
(** YIELD - *)
Lemma take_call_dash : forall f es w ua uw R t, plain_name f -> prints_args es ua -> maybe (B "WHERE ") (prints 0) w uw -> begins w_after R ->
  takes t (PRule R_clause) (B "CALL " ++ name_text f ++ ua ++ B "YIELD - " ++ uw) R (HNode (clause_term (Call f es [] w))).
Proof.
  intros f es w ua uw R t HF HA HW HB. assert (HG : gapfree R) by (eapply after_gap; [exact HB|i_]).
  destruct (opt_where col off inp w uw R HW HB) as [HO HC].
  assert (HO2 : begins w_call (B "YIELD - " ++ uw ++ R)) by (exists (B "YIELD "), (B "- " ++ uw ++ R); split; [in_|reflexivity]).
  pose proof (call_gapfree _ HO2) as G2.
  assert (HO3 : begins w_call (ua ++ B "YIELD - " ++ uw ++ R)).
  { destruct HA; [exact HO2|exists (B "( "), (B ") " ++ B "YIELD - " ++ uw ++ R); split; [in_|reflexivity]|].
    exists (B "( "), ((u ++ B ") ") ++ B "YIELD - " ++ uw ++ R). split; [in_|]. rewrite <- !app_assoc. reflexivity. }
  destruct (opt_args es ua (B "YIELD - " ++ uw ++ R) HA G2) as [[-> HC3]|(u1 & us1 & tm1 & ts1 & -> & HM1 & K1 & K2 & H1 & H2)].
  all: pose proof (fun t => take_proc t f _ HF HO3) as H0.
  all: assert (N1 : forall t, refuses t (PRule R_LEFT_PAREN) R) by (eapply refuse_at; [|exact HB]; stop_).
  all: assert (N2 : forall t, refuses t (PRule R_YIELD) R) by (eapply refuse_at; [|exact HB]; stop_).
  all: rewrite call_shape; rewrite ?HM1.
  all: try destruct HC3 as [-> | ->].
  all: cbn [map].
  all: destruct w as [e|]; [destruct HC as (u6 & -> & G6 & _ & H6); open_ (u6 ++ R) c6 r6 E6 K6; [exact G6|]|destruct HC as [-> N3]].
  all: rewrite ?app_nil_l in *.
  all: open_gap R HG.
  - call_of t ([[]; f ++ B "` " ++ B "YIELD - " ++ B "WHERE " ++ u6 ++ c :: R'; []; []; []; []; r6]) ([HNone; HNone; HNone; HNone; HNode (ex_term e)]) ((map Kn (B "YIELD - ") ++ (map Kn (B "WHERE ") ++ [Ho 6 c6]))) ("000"%char) ((map Kn (B "YIELD - ") ++ (map Kn (B "WHERE ") ++ [Ho 6 c6]))) ("000"%char) ((map Kn (B "WHERE ") ++ [Ho 6 c6])) c R' f.
    hole_ ltac:(first [apply H0|apply H6]).
  - call_of t ([[]; f ++ B "` " ++ B "YIELD - " ++ c :: R'; []; []; []; []; []]) ([HNone; HNone; HNone; HNone; HNone]) ((map Kn (B "YIELD - ") ++ [Ho 9 c])) ("000"%char) ((map Kn (B "YIELD - ") ++ [Ho 9 c])) ("000"%char) ([Ho 9 c]) c R' f.
    hole_ ltac:(first [apply H0|apply N1|apply N2|apply N3]).
  - call_of t ([[]; f ++ B "` " ++ B "( ) " ++ B "YIELD - " ++ B "WHERE " ++ u6 ++ c :: R'; []; []; []; []; r6]) ([HNone; HNone; HNone; HNone; HNode (ex_term e)]) ((map Kn (B "( ) ") ++ (map Kn (B "YIELD - ") ++ (map Kn (B "WHERE ") ++ [Ho 6 c6])))) ("000"%char) ((map Kn (B "YIELD - ") ++ (map Kn (B "WHERE ") ++ [Ho 6 c6]))) ("000"%char) ((map Kn (B "WHERE ") ++ [Ho 6 c6])) c R' f.
    hole_ ltac:(first [apply H0|apply H6]).
  - call_of t ([[]; f ++ B "` " ++ B "( ) " ++ B "YIELD - " ++ c :: R'; []; []; []; []; []]) ([HNone; HNone; HNone; HNone; HNone]) ((map Kn (B "( ) ") ++ (map Kn (B "YIELD - ") ++ [Ho 9 c]))) ("000"%char) ((map Kn (B "YIELD - ") ++ [Ho 9 c])) ("000"%char) ([Ho 9 c]) c R' f.
    hole_ ltac:(first [apply H0|apply N1|apply N2|apply N3]).
  - open_ (u1 ++ us1 ++ B ") " ++ B "YIELD - " ++ B "WHERE " ++ u6 ++ c :: R') c2 r2 EE2 GG2; [rewrite <- ?app_assoc in K1; exact K1|]. open_ (us1 ++ B ") " ++ B "YIELD - " ++ B "WHERE " ++ u6 ++ c :: R') c4 r4 EE4 GG4; [rewrite <- ?app_assoc in K2; exact K2|].
    call_of t ([[]; f ++ B "` " ++ B "( " ++ u1 ++ us1 ++ B ") " ++ B "YIELD - " ++ B "WHERE " ++ u6 ++ c :: R'; r2; []; r4; []; r6]) ([HNode tm1; HNone; HGrow 4 [1] ts1; HNone; HNode (ex_term e)]) ((map Kn (B "( ") ++ [Ho 2 c2])) (c4) ((map Kn (B "YIELD - ") ++ (map Kn (B "WHERE ") ++ [Ho 6 c6]))) ("000"%char) ((map Kn (B "WHERE ") ++ [Ho 6 c6])) c R' f.
    hole_ ltac:(first [apply H0|apply H1|apply H2|apply H6]).
  - open_ (u1 ++ us1 ++ B ") " ++ B "YIELD - " ++ c :: R') c2 r2 EE2 GG2; [rewrite <- ?app_assoc in K1; exact K1|]. open_ (us1 ++ B ") " ++ B "YIELD - " ++ c :: R') c4 r4 EE4 GG4; [rewrite <- ?app_assoc in K2; exact K2|].
    call_of t ([[]; f ++ B "` " ++ B "( " ++ u1 ++ us1 ++ B ") " ++ B "YIELD - " ++ c :: R'; r2; []; r4; []; []]) ([HNode tm1; HNone; HGrow 4 [1] ts1; HNone; HNone]) ((map Kn (B "( ") ++ [Ho 2 c2])) (c4) ((map Kn (B "YIELD - ") ++ [Ho 9 c])) ("000"%char) ([Ho 9 c]) c R' f.
    hole_ ltac:(first [apply H0|apply H1|apply H2|apply N1|apply N2|apply N3]).
Qed.
End Call.
