(** * What the rules of the option CYPHER take *)
From Coq Require Import List Bool Arith Ascii String ZArith Lia Permutation.
From Verif Require Import Peg PegProofs PegThunks QuickModel QuickSpec QuickProofs CypherSyntax CypherGrammar OperModel ErrModel
  CypherMatch AstTypes AstModel CypherBuild CypherExec CypherParse CypherRun CypherRound CypherSpec
  NodeFacts NodeHeld FlowSound FlowRun SafeProofs TraceSpec TraceProofs LexSpec LexProofs TermSpec Forward ForwardExec ForwardLex
  ForwardStep ForwardAtom ForwardExpr ForwardName ForwardNum ForwardPat ForwardForm ExprSpec ForwardPrint StmtSpec ForwardStmt ForwardClause
  ForwardItem ForwardPattern.
Import ListNotations.
Open Scope peg_scope.
Opaque parse_one cfuel.
Strategy expand [crun].

(** ** No setting: a word, and then no equals sign *)
Definition free_words : list bytes :=
  [B "EXPLAIN "; B "PROFILE "; B "CYPHER "; B "USING "; B "DROP "] ++ clause_words.
Definition free (R : bytes) : Prop :=
  exists w c R', In w free_words /\ R = w ++ c :: R' /\ c <> "="%char /\ gapfree (c :: R').
Lemma free_gap : forall R, free R -> gapfree R.
Proof.
  intros R (w & c & R' & H & -> & _). unfold free_words, clause_words in H. cbn [app In] in H.
  repeat (destruct H as [<-|H]; [gapchar|]); contradiction.
Qed.

Section Option.
Variables (col : coloring) (off : position) (inp : bytes).
Notation runc := (run CG (get_of inp) (cprun col off)).
Notation vis := (visits col off inp).
Notation cst := (pst action cuser).
Notation performs := (performs inp).
Notation takes := (takes col off inp).
Notation refuses := (refuses col off inp).
Notation here := (here inp).

(** ** Runs of bytes *)
Lemma performs_none_app : forall l1 l2, performs HNone l1 -> performs HNone l2 -> performs HNone (l1 ++ l2).
Proof.
  intros l1 l2 H1 H2 e a a' b bs HE Hex HB. rewrite CypherRound.exec_app in Hex. destruct (exec e l1 a) as [a1| | |] eqn:E1; cbn in Hex; try discriminate.
  pose proof (H1 e a a1 b bs HE E1 HB) as ->. exact (H2 e a a' b bs HE Hex HB).
Qed.
Lemma bytes_star : forall x (P : ascii -> Prop), (forall c R t, P c -> takes t x [c] R HNone) ->
  forall ds R, (forall c, In c ds -> P c) -> (forall t, refuses t x R) -> forall t, takes t (PStar x) ds R HNone.
Proof.
  intros x P H ds R HD HR. induction ds as [|c ds IH]; intros t m s HH HS; (destruct m as [|m]; [exact I|]); cbn [Peg.run visits].
  - specialize (HR t m s HH HS). destruct (runc m x s) as [s1|s1| |]; try exact I; try contradiction. split; [exact HH|]. split; [exact HR|].
    split; [exists []; split; [reflexivity|apply performs_none]|constructor].
  - pose proof (H c (ds ++ R) t (HD c (or_introl eq_refl)) m s HH HS) as K. destruct (runc m x s) as [s1|s1| |]; try exact I; try contradiction.
    destruct K as (K1 & K2 & (l1 & L1 & P1) & K4).
    specialize (IH (fun c Hc => HD c (or_intror Hc)) (mkt None (t_prs t)) m s1 K1 ltac:(split; [exact K2|exact I])). cbn [t_prs] in IH.
    destruct (runc m (PStar x) s1) as [s3|s3| |]; try exact I; try contradiction. destruct IH as (U1 & U2 & (l2 & L2 & P2) & U4).
    split; [exact U1|]. split; [exact U2|]. split; [|apply Forall_app; split; assumption].
    exists (l1 ++ l2). split; [rewrite L2, L1, rev_app_distr, app_assoc; reflexivity|apply performs_none_app; assumption].
Qed.
Lemma bytes_plus : forall x (P : ascii -> Prop), (forall c R t, P c -> takes t x [c] R HNone) ->
  forall d ds R, (forall c, In c (d :: ds) -> P c) -> (forall t, refuses t x R) -> forall t, takes t (PPlus x) (d :: ds) R HNone.
Proof.
  intros x P H d ds R HD HR t m s HH HS. destruct m as [|m]; [exact I|]. cbn [Peg.run visits].
  pose proof (H d (ds ++ R) t (HD d (or_introl eq_refl)) m s HH HS) as K. destruct (runc m x s) as [s1|s1| |]; try exact I; try contradiction.
  destruct K as (K1 & K2 & (l1 & L1 & P1) & K4).
  pose proof (bytes_star x P H ds R (fun c Hc => HD c (or_intror Hc)) HR (mkt None (t_prs t)) m s1 K1 ltac:(split; [exact K2|exact I])) as IH. cbn [t_prs] in IH.
  destruct (runc m (PStar x) s1) as [s3|s3| |]; try exact I; try contradiction. destruct IH as (U1 & U2 & (l2 & L2 & P2) & U4).
  split; [exact U1|]. split; [exact U2|]. split; [|apply Forall_app; split; assumption].
  exists (l1 ++ l2). split; [rewrite L2, L1, rev_app_distr, app_assoc; reflexivity|apply performs_none_app; assumption].
Qed.
Lemma class_take : forall cs c R t, In c cs -> takes t (PClass cs) [c] R HNone.
Proof.
  intros cs c R t HC m s HH [HS _]. pose proof (class_one col off inp cs c R HC m s HH) as K.
  pose proof (class_must col off inp cs c R m s) as K2.
  pose proof (keeps_precs col off inp m (PClass cs) s (Some 0) eq_refl (or_intror eq_refl)) as K3.
  destruct (runc m (PClass cs) s) as [s'|s'| |] eqn:E; auto; [|exact (K2 _ HC HH eq_refl)].
  destruct K as (R1 & K & ->). split; [exact K|]. split; [congruence|].
  split; [|destruct m; constructor]. exists []. split; [|apply performs_none].
  apply run_class in E. destruct E as (d & _ & _ & E). exact E.
Qed.
Lemma here_next : forall (s : cst) c R, here s (c :: R) -> get_of inp (pos s) = Some c /\ here (advance s) R.
Proof.
  intros s c R HH. split; [pose proof (here_char _ _ _ _ HH) as K; unfold LexProofs.at_ in K; rewrite Nat.add_0_r in K; exact K|].
  destruct HH as [H1 H2]. unfold advance, ForwardLex.here. cbn [pos].
  assert (L : List.length (skipn (pos s) inp) = S (List.length R)) by (rewrite H1; reflexivity). rewrite skipn_length in L.
  split; [|lia]. clear L H2. revert H1. generalize (pos s). induction inp as [|d l IH]; intros [|p] H; try discriminate H.
  - injection H as _ H. exact H.
  - cbn [skipn] in *. apply IH, H.
Qed.
Definition black : cexp := PNot (PRule R_WS) ⋅ PDot.
Lemma no_white : forall c R t, ~ In c blanks -> refuses t (PRule R_WS) (c :: R).
Proof.
  intros c R t HC. replace (c :: R) with (text (many [[]; R] []) [Ho 1 c]) by (cbn; rewrite app_nil_r; reflexivity).
  destruct c as [[] [] [] [] [] [] [] []]; try (exfalso; apply HC; cbn; tauto).
  all: eapply (refuse_of col off inp (many [[]; R] []) (effs []) nofact 20); [run_fail|reflexivity|apply Forall_nil].
Qed.
Lemma black_take : forall c R t, ~ In c blanks -> takes t black [c] R HNone.
Proof.
  intros c R t HC m s HH HS. destruct m as [|[|m]]; [exact I|exact I|]. cbn [black Peg.run visits].
  pose proof (no_white c R t HC m s HH HS) as K. destruct (here_next _ _ _ HH) as [G1 G2].
  change (run CG (get_of inp) (cprun col off) m (PRule R_WS) s) with (runc m (PRule R_WS) s).
  destruct (runc m (PRule R_WS) s) as [s1|s1| |]; auto. cbn [pos restore]. rewrite G1.
  split; [exact G2|]. split; [exact K|]. split; [exists []; split; [reflexivity|apply performs_none]|constructor].
Qed.
Lemma black_stop : forall c R t, refuses t black (" "%char :: c :: R).
Proof.
  intros c R t. replace (" "%char :: c :: R) with (text (many [] R) [Kn " "%char; Ho 9 c]) by (cbn; rewrite ?app_nil_r; reflexivity).
  eapply (refuse_of col off inp (many [] R) (effs []) nofact 20); [run_fail|reflexivity|apply Forall_nil].
Qed.

(** ** Blocks *)
Ltac one_block t H1 n0 n c R' p HI :=
  let HS := fresh "HS" in
  assert (HS : slice_real inp (many [[]; n ++ " "%char :: c :: R'] R') [Ho 1 n0] [Kn " "%char; Ho 9 c] = n0 :: n)
    by (apply (slice_text inp _ p); [rewrite HI|]; text_; reflexivity);
  rewrite <- HS at 2;
  eapply (take_of col off inp (many [[]; n ++ " "%char :: c :: R'] R') (effs [HNone; HNone])
    (fact_tab [] [([1], FTake 1 [Kn " "%char; Ho 9 c])]) 60 _ [Ho 1 n0] t);
  [run_trun|reflexivity| |apply (node_slice inp (many [[]; n ++ " "%char :: c :: R'] R') (effs [HNone; HNone]) _
     (fun sl tf => T T_STRING [TStr (sl [Ho 1 n0] [Kn " "%char; Ho 9 c])])); run_node|nrm_; reflexivity|nrm_; reflexivity];
  hole_ ltac:(apply H1).
Lemma take_setting_name : forall n0 n c R' t, In n0 setting_starts -> all_in setting_chars n ->
  takes t (PRule R_cypher_param_name) (n0 :: n) (" "%char :: c :: R') (HNode (named T_STRING (n0 :: n))).
Proof.
  intros n0 n c R' t H0 HN. apply with_input. intros p HI.
  assert (H1 : forall t, takes t (PPlus (PClass setting_chars)) (n0 :: n) (" "%char :: c :: R') HNone).
  { apply (bytes_plus _ (fun c => In c setting_chars)).
    - intros d R s Hd. apply class_take, Hd.
    - intros d [<-|Hd]; [|apply HN, Hd]. clear - H0. cbn in H0 |- *. tauto.
    - intros s. apply class_stop. cbn. intuition discriminate. }
  unfold named. one_block t H1 n0 n c R' p HI.
Qed.
Lemma take_setting_value : forall v0 v c R' t, (forall d, In d (v0 :: v) -> ~ In d blanks) ->
  takes t (PRule R_cypher_param_val) (v0 :: v) (" "%char :: c :: R') (HNode (named T_STRING (v0 :: v))).
Proof.
  intros n0 n c R' t HN. apply with_input. intros p HI.
  assert (H1 : forall t, takes t (PPlus black) (n0 :: n) (" "%char :: c :: R') HNone).
  { apply (bytes_plus _ (fun c => ~ In c blanks)); [|exact HN|].
    - intros d R s Hd. apply black_take, Hd.
    - intros s. apply black_stop. }
  unfold named. one_block t H1 n0 n c R' p HI.
Qed.
Lemma take_version : forall a b c R' t, digits a -> digits b ->
  takes t (PRule R_cypher_version) (version_text (a, b)) (" "%char :: c :: R') (HNode (named T_STRING (version_text (a, b)))).
Proof.
  intros [|a0 a] [|b0 b] c R' t [N1 HA] [N2 HB]; try contradiction. clear N1 N2. unfold version_text. cbn [fst snd]. apply with_input. intros p HI.
  assert (H1 : forall t R, takes t (PPlus (PClass digit_chars)) (a0 :: a) ("."%char :: R) HNone).
  { intros s R. apply (bytes_plus _ (fun c => In c digit_chars)); [|exact HA|].
    - intros d R0 s0 Hd. apply class_take, Hd.
    - intros s0. apply class_stop. cbn. intuition discriminate. }
  assert (H2 : forall t R, takes t (PPlus (PClass digit_chars)) (b0 :: b) (" "%char :: R) HNone).
  { intros s R. apply (bytes_plus _ (fun c => In c digit_chars)); [|exact HB|].
    - intros d R0 s0 Hd. apply class_take, Hd.
    - intros s0. apply class_stop. cbn. intuition discriminate. }
  set (rs := many [[]; a ++ "."%char :: b0 :: b ++ " "%char :: c :: R'; b ++ " "%char :: c :: R'] R').
  assert (HS : slice_real inp rs [Ho 1 a0] [Kn " "%char; Ho 9 c] = (a0 :: a) ++ B "." ++ b0 :: b).
  { apply (slice_text inp _ p); [rewrite HI|]; unfold rs; text_; reflexivity. }
  unfold named. rewrite <- HS at 2. unfold rs.
  eapply (take_of col off inp rs (effs [HNone; HNone; HNone])
    (fact_tab [] [([1], FTake 1 [Kn "."%char; Ho 2 b0]); ([2], FTake 2 [Kn " "%char; Ho 9 c])]) 60 _ [Ho 1 a0] t);
  [run_trun|reflexivity| |apply (node_slice inp rs (effs [HNone; HNone; HNone]) _
     (fun sl tf => T T_STRING [TStr (sl [Ho 1 a0] [Kn " "%char; Ho 9 c])])); run_node|unfold rs; nrm_; reflexivity|unfold rs; nrm_; reflexivity].
  unfold rs. apply Forall_cons; [eapply ob_take; [cbn [effs nth]; eapply takes_at; [apply H1|nrm_; reflexivity]|nrm_; reflexivity]|].
  hole_ ltac:(apply H2).
Qed.
Lemma take_setting : forall p c R' t, good_setting p ->
  takes t (PRule R_cypher_param) (setting_text p) (" "%char :: c :: R') (HNode (setting_term p)).
Proof.
  intros [n v] c R' t ((n0 & n' & E1 & HN0 & HN) & (v0 & v' & E2 & HV0) & HV). cbn [fst snd] in *. subst n v. unfold setting_text, setting_term. cbn [fst snd].
  pose proof (fun t => take_setting_name n0 n' "="%char (" "%char :: v0 :: v' ++ " "%char :: c :: R') t HN0 HN) as H1.
  pose proof (fun t => take_setting_value v0 v' c R' t HV) as H2.
  assert (G : gapfree (v0 :: v' ++ " "%char :: c :: R')).
  { left. eexists; eexists; split; [reflexivity|]. intros K. pose proof (HV v0 (or_introl eq_refl)) as K'. cbn in K, K'. intuition. }
  eapply (take_of col off inp (many [[]; n' ++ B " = " ++ v0 :: v' ++ " "%char :: c :: R'; v' ++ " "%char :: c :: R'] R')
    (effs [HNone; HNode (named T_STRING (n0 :: n')); HNode (named T_STRING (v0 :: v'))])
    (fact_tab [(R_cypher_param_name, [1], FTake 1 (map Kn (B " = ") ++ [Ho 2 v0])); (R_cypher_param_val, [2], FTake 2 [Kn " "%char; Ho 9 c])] []) 60 _ [Ho 1 n0] t);
    [run_trun|reflexivity| |apply node_ok; run_node|nrm_; reflexivity|nrm_; reflexivity].
  hole_ ltac:(first [apply H1|apply H2]).
Qed.

(** ** Settings *)
Definition setting1 : cexp := PRule R_sp ⋅ bind 1 R_cypher_param ⋅ PAct (TDo [SSeqAdd (AVar 1)]).
Lemma setting_gap : forall p R, good_setting p -> gapfree (setting_text p ++ R).
Proof.
  intros [n v] R ((c & n' & E & HC & _) & _). cbn [fst] in E. subst n. left. eexists; eexists. split; [reflexivity|].
  clear - HC. cbn in HC. repeat (destruct HC as [<-|HC]; [cbn; intuition discriminate|]). contradiction.
Qed.
Lemma setting_first : forall p c R' t, good_setting p -> takes t setting1 (setting_text p) (" "%char :: c :: R') (HGrow 2 [1] [setting_term p]).
Proof.
  intros p c R' t HP. pose proof (fun t => take_setting p c R' t HP) as H1. generalize dependent (setting_term p). intros tm H1.
  open_ (setting_text p ++ " "%char :: c :: R') c1 r1 E1 K1; [apply setting_gap, HP|].
  eapply (take_of col off inp (many [[]; r1] R') (effs [HNone; HNode tm]) (fact_tab [(R_cypher_param, [1], FTake 1 [Kn " "%char; Ho 9 c])] []) 60 _ [Ho 1 c1] t);
    [run_trun|reflexivity| |apply grow_ok; [reflexivity|run_grow]|nrm_; reflexivity|nrm_; reflexivity].
  hole_ ltac:(apply H1).
Qed.
Lemma setting_next : forall p c R' t, good_setting p -> takes t setting1 (B " " ++ setting_text p) (" "%char :: c :: R') (HGrow 2 [1] [setting_term p]).
Proof.
  intros p c R' t HP. pose proof (fun t => take_setting p c R' t HP) as H1. generalize dependent (setting_term p). intros tm H1.
  open_ (setting_text p ++ " "%char :: c :: R') c1 r1 E1 K1; [apply setting_gap, HP|].
  eapply (take_of col off inp (many [[]; r1] R') (effs [HNone; HNode tm]) (fact_tab [(R_cypher_param, [1], FTake 1 [Kn " "%char; Ho 9 c])] []) 60 _ [Kn " "%char; Ho 1 c1] t);
    [run_trun|reflexivity| |apply grow_ok; [reflexivity|run_grow]|nrm_; reflexivity|nrm_; reflexivity].
  hole_ ltac:(apply H1).
Qed.
Lemma no_equal : forall c R t, c <> "="%char -> refuses t (PRule R_EQUAL) (c :: R).
Proof.
  intros c R t HC. replace (c :: R) with (text (many [[]; R] []) [Ho 1 c]) by (cbn; rewrite app_nil_r; reflexivity).
  destruct c as [[] [] [] [] [] [] [] []]; try (exfalso; apply HC; reflexivity).
  all: eapply (refuse_of col off inp (many [[]; R] []) (effs []) nofact 20); [run_fail|reflexivity|apply Forall_nil].
Qed.
Lemma no_setting : forall R t, free R -> refuses t (PRule R_cypher_param) R.
Proof.
  intros R t (w & c & R' & HW & -> & HC & HG). pose proof (fun t => no_equal c R' t HC) as N.
  replace (w ++ c :: R') with (text (many [] R') (map Kn w ++ [Ho 9 c])) by (rewrite text_known; cbn; rewrite ?app_nil_r; reflexivity).
  unfold free_words, clause_words in HW. cbn [app In] in HW. repeat (destruct HW as [<-|HW]; [|]); [..|contradiction].
  all: eapply (refuse_of col off inp (many [] R') (effs []) (fact_tab [(R_EQUAL, [9], FFail)] []) 60); [run_fail|reflexivity|].
  all: hole_ ltac:(apply N).
Qed.
Lemma no_version : forall R t, free R -> refuses t (PRule R_cypher_version) R.
Proof.
  intros R t (w & c & R' & HW & -> & _). revert t. apply (refuse_at col off inp R_cypher_version free_words); [|exists w, (c :: R'); auto].
  unfold free_words, clause_words. cbn [app]. stop_.
Qed.
Lemma no_version_name : forall p R t, good_setting p -> refuses t (PRule R_cypher_version) (setting_text p ++ R).
Proof.
  intros [n v] R t ((c & n' & E & HC & _) & _). cbn [fst] in E. subst n. unfold setting_text. cbn [fst snd app].
  set (R0 := (n' ++ B " = " ++ v) ++ R). change (n' ++ " "%char :: "="%char :: " "%char :: v) with (n' ++ B " = " ++ v). fold R0.
  replace (c :: R0) with (text (many [[]; R0] []) [Ho 1 c]) by (cbn; rewrite app_nil_r; reflexivity).
  unfold setting_starts in HC. cbn in HC. repeat (destruct HC as [<-|HC]; [|]); [..|contradiction].
  all: eapply (refuse_of col off inp (many [[]; R0] []) (effs []) nofact 20); [run_fail|reflexivity|apply Forall_nil].
Qed.
Lemma no_step : forall R t, free R -> refuses t setting1 R.
Proof.
  intros R t HF. pose proof (fun t => no_setting R t HF) as N. pose proof (free_gap R HF) as HG. open_gap R HG.
  replace (c :: R') with (text (many [] R') [Ho 9 c]) by (cbn; rewrite ?app_nil_r; reflexivity).
  eapply (refuse_of col off inp (many [] R') (effs []) (fact_tab [(R_cypher_param, [9], FFail)] []) 60); [run_fail|reflexivity|]. hole_ ltac:(apply N).
Qed.
Lemma no_step_blank : forall R t, free R -> refuses t setting1 (" "%char :: R).
Proof.
  intros R t HF. pose proof (fun t => no_setting R t HF) as N. pose proof (free_gap R HF) as HG. open_gap R HG.
  replace (" "%char :: c :: R') with (text (many [] R') [Kn " "%char; Ho 9 c]) by (cbn; rewrite ?app_nil_r; reflexivity).
  eapply (refuse_of col off inp (many [] R') (effs []) (fact_tab [(R_cypher_param, [9], FFail)] []) 60); [run_fail|reflexivity|]. hole_ ltac:(apply N).
Qed.
Definition settings_text (ps : list (bytes * bytes)) : bytes := flat_map (fun p => B " " ++ setting_text p) ps.
Lemma settings_next : forall ps R, (forall p, In p ps -> good_setting p) -> free R ->
  exists c r, settings_text ps ++ " "%char :: R = " "%char :: c :: r.
Proof.
  intros [|p ps] R HP HF.
  - pose proof (free_gap R HF) as HG. open_gap R HG. eexists; eexists; reflexivity.
  - pose proof (setting_gap p (settings_text ps ++ " "%char :: R) (HP p (or_introl eq_refl))) as HG. destruct (gap_open _ HG) as (c & r & E & _).
    exists c, r. unfold settings_text in *. cbn [flat_map]. rewrite <- !app_assoc. rewrite E. reflexivity.
Qed.
Lemma take_settings : forall ps R, (forall p, In p ps -> good_setting p) -> free R ->
  forall t, takes t (PStar setting1) (settings_text ps) (" "%char :: R) (HGrow 2 [1] (map setting_term ps)).
Proof.
  intros ps R HP HF. induction ps as [|p ps IH]; intros t.
  - apply star_none. apply no_step_blank, HF.
  - unfold settings_text. cbn [flat_map map]. change (flat_map (fun p => B " " ++ setting_text p) ps) with (settings_text ps).
    assert (HQ : forall q, In q ps -> good_setting q) by (intros q Hq; apply HP; right; exact Hq).
    apply (star_more col off inp t _ (B " " ++ setting_text p) _ _ 2 [1] [setting_term p] _); [|apply IH, HQ].
    destruct (settings_next ps R HQ HF) as (c & r & ->). apply setting_next, HP. left. reflexivity.
Qed.
Lemma take_settings_now : forall p ps R, (forall q, In q (p :: ps) -> good_setting q) -> free R ->
  forall t, takes t (PStar setting1) (setting_text p ++ settings_text ps) (" "%char :: R) (HGrow 2 [1] (map setting_term (p :: ps))).
Proof.
  intros p ps R HP HF t. assert (HQ : forall q, In q ps -> good_setting q) by (intros q Hq; apply HP; right; exact Hq).
  apply (star_more col off inp t _ (setting_text p) _ _ 2 [1] [setting_term p] _); [|apply take_settings; assumption].
  destruct (settings_next ps R HQ HF) as (c & r & ->). apply setting_first, HP. left. reflexivity.
Qed.
Lemma take_cypher : forall v ps R t, good_option (Cypher v ps) -> free R ->
  takes t (PRule R_statement_option) (option_text (Cypher v ps)) R (HGrow 1 [] [option_term (Cypher v ps)]).
Proof.
  intros v ps R t [HV HP] HF. pose proof (free_gap R HF) as HG. cbn [option_text option_term]. fold (settings_text ps). destruct v as [[a b]|].
  - destruct HV as [HA HB]. cbn [option_map]. pose proof (take_settings ps R HP HF) as H2.
    destruct (settings_next ps R HP HF) as (c4 & r4 & E4). pose proof (fun t => take_version a b c4 r4 t HA HB) as H1.
    generalize dependent (map setting_term ps). intros ts H2. rewrite <- (app_nil_r ts).
    assert (GV : gapfree (version_text (a, b) ++ " "%char :: c4 :: r4)) by (unfold version_text; cbn [fst snd]; rewrite <- app_assoc; apply digits_gapfree, HA).
    generalize dependent (version_text (a, b)). intros u H1 GV.
    open_ (u ++ " "%char :: c4 :: r4) c1 r1 E1 K1; [exact GV|]. open_gap R HG.
    eapply (take_of col off inp (many [[]; r1; []; []; c4 :: r4] R') (effs [HNone; HNode (named T_STRING u); HNone; HNone; HGrow 2 [1] ts])
      (fact_tab [(R_cypher_version, [1], FTake 1 [Ho 4 " "%char])] [([4], FTake 4 [Kn " "%char; Ho 9 c])]) 60 _ (map Kn (B "CYPHER ") ++ [Ho 1 c1]) t);
      [run_trun|reflexivity| |apply grow_ok; [reflexivity|run_grow]|nrm_; reflexivity|nrm_; reflexivity].
    hole_ ltac:(first [apply H1|apply H2]).
  - destruct ps as [|p ps].
    + assert (H1 : forall t, takes t (PStar setting1) [] R (HGrow 2 [1] [])) by (intros t'; apply star_none, no_step, HF).
      pose proof (fun t => no_version R t HF) as N. open_gap R HG.
      eapply (take_of col off inp (many [] R') (effs [HNone; HGrow 2 [1] []])
        (fact_tab [(R_cypher_version, [9], FFail)] [([9], FTake 1 [Ho 9 c])]) 60 _ (map Kn (B "CYPHER ") ++ [Ho 9 c]) t);
        [run_trun|reflexivity| |apply grow_ok; [reflexivity|run_grow]|nrm_; reflexivity|nrm_; reflexivity].
      hole_ ltac:(first [apply H1|apply N]).
    + pose proof (take_settings_now p ps R HP HF) as H1.
      pose proof (fun t => no_version_name p (settings_text ps ++ " "%char :: R) t (HP p (or_introl eq_refl))) as N.
      assert (GP : gapfree ((setting_text p ++ settings_text ps) ++ " "%char :: R)) by (rewrite <- app_assoc; apply setting_gap, HP; left; reflexivity).
      rewrite app_assoc in N. unfold settings_text at 1. cbn [flat_map]. fold (settings_text ps). rewrite <- (app_assoc (B " ")).
      generalize dependent (map setting_term (p :: ps)). intros ts H1. rewrite <- (app_nil_r ts).
      generalize dependent (setting_text p ++ settings_text ps). intros u N GP H1.
      open_ (u ++ " "%char :: R) c1 r1 E1 K1; [exact GP|]. open_gap R HG.
      eapply (take_of col off inp (many [[]; r1] R') (effs [HNone; HGrow 2 [1] ts])
        (fact_tab [(R_cypher_version, [1], FFail)] [([1], FTake 1 [Kn " "%char; Ho 9 c])]) 60 _ (map Kn (B "CYPHER ") ++ [Ho 1 c1]) t);
        [run_trun|reflexivity| |apply grow_ok; [reflexivity|run_grow]|nrm_; reflexivity|nrm_; reflexivity].
      hole_ ltac:(first [apply H1|apply N]).
Qed.
End Option.
