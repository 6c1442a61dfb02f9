(** * What the rules of expressions take: identifiers; when a parenthesis is not a pattern *)
From Coq Require Import List Bool Arith Ascii String ZArith Lia Permutation.
From Verif Require Import Peg PegProofs PegThunks QuickModel QuickSpec QuickProofs CypherSyntax CypherGrammar OperModel ErrModel
  CypherMatch AstTypes AstModel CypherBuild CypherExec CypherParse CypherRun CypherRound CypherSpec
  NodeFacts NodeHeld FlowSound FlowRun SafeProofs TraceSpec TraceProofs LexSpec LexProofs TermSpec Forward ForwardExec ForwardLex
  ForwardStep ForwardAtom.
Import ListNotations.
Open Scope peg_scope.
Opaque parse_one cfuel.
Strategy expand [crun].

(** a name in front of this is not that of a function being called *)
Inductive nocall : bytes -> Prop :=
| nc_char : forall c R, ~ In c [" "; "009"; "010"; "013"; "/"; "("; "."]%char -> nocall (c :: R)
| nc_div : forall R, nocall (B "/ " ++ R)
| nc_dots : forall R, nocall (B ".." ++ R)
| nc_prop : forall v R, ~ In "`"%char v -> nocall R -> nocall (B ". `" ++ v ++ B "` " ++ R).
Lemma nocall_gapfree : forall R, nocall R -> gapfree R.
Proof.
  intros R H. destruct H as [c R H|R|R|v R _ _].
  - left. exists c, R. split; [reflexivity|]. intros K. apply H. cbn in *. intuition.
  - right. exists R. reflexivity.
  - left. eexists; eexists; split; [reflexivity|cbn [In]; intuition discriminate].
  - left. eexists; eexists; split; [reflexivity|cbn [In]; intuition discriminate].
Qed.

Section Name.
Variables (col : coloring) (off : position) (inp : bytes).
Notation runc := (run CG (get_of inp) (cprun col off)).
Notation vis := (visits col off inp).
Notation cst := (pst action cuser).
Notation performs := (performs inp).
Notation takes := (takes col off inp).
Notation refuses := (refuses col off inp).
Notation here := (here inp).

(** where an expression ends, if it matches *)
Definition goes (x : cexp) (u : bytes) (P : bytes -> Prop) : Prop :=
  forall m s, here s u -> match runc m x s with ROk s' => exists R, here s' R /\ P R | _ => True end.
Lemma goes_of : forall rest_of eff fact n x w (f : tst -> tres) w',
  (forall t, trun fact n x w t = f t /\ (match f t with TOk w1 _ _ _ _ => w1 = w' | _ => False end) /\
     Forall (ob col off inp rest_of (fun i => performs (eff i))) (obs_of (f t))) ->
  goes x (text rest_of w) (fun R => R = text rest_of w').
Proof.
  intros rest_of eff fact n x w f w' H m s HH. destruct (H (mkt None (c_precs (user s)))) as (E & EW & HO).
  pose proof (trun_sound col off inp rest_of (fun i => performs (eff i)) fact m n x w (mkt None (c_precs (user s))) s) as K.
  rewrite E in K. unfold good in K. destruct (f (mkt None (c_precs (user s)))) as [w1 t1 tr pl obs| |]; try contradiction. subst w1.
  cbn [obs_of] in *. specialize (K HH ltac:(split; [reflexivity|exact I]) HO).
  destruct (runc m x s) as [s'|s'| |]; auto. destruct K as (K & _). exists (text rest_of w'). auto.
Qed.
Lemma goes_not : forall x u P, (forall t, refuses t x u) -> goes x u P.
Proof.
  intros x u P H m s HH. specialize (H (mkt None (c_precs (user s))) m s HH (conj eq_refl I)).
  destruct (runc m x s); auto. contradiction.
Qed.
Lemma goes_to : forall x u u' (P : bytes -> Prop), goes x u (fun R => R = u') -> P u' -> goes x u P.
Proof. intros x u u' P H HP m s HH. specialize (H m s HH). destruct (runc m x s); auto. destruct H as (R & H & ->). eauto. Qed.
Lemma goes_seq : forall x y u P Q, goes x u P -> (forall R, P R -> goes y R Q) -> goes (x ⋅ y) u Q.
Proof.
  intros x y u P Q H1 H2 [|m] s HH; [exact I|]. cbn [Peg.run]. specialize (H1 m s HH).
  destruct (runc m x s) as [s1|s1| |]; auto. destruct H1 as (R & H1 & HP). exact (H2 R HP m s1 H1).
Qed.
Lemma goes_rule : forall r u P, goes (CG r) u P -> goes (PRule r) u P.
Proof. intros r u P H [|m] s HH; [exact I|]. cbn [Peg.run]. specialize (H m s HH). destruct (runc m (CG r) s); auto. Qed.
Lemma goes_err : forall x q u P, goes x u P -> goes (PErr x q) u P.
Proof.
  intros x q u P H [|m] s HH; [exact I|]. cbn [Peg.run]. specialize (H m s HH). destruct (runc m x s); auto.
  destruct (run_pred _ _ _ _); auto.
Qed.
Lemma goes_act : forall a u, goes (PAct a) u (fun R => R = u).
Proof. intros a u [|m] s HH; [exact I|]. cbn. exists u. auto. Qed.
Lemma goes_do : forall a u, goes (PPred (QDo a)) u (fun R => R = u).
Proof. intros a u [|m] s HH; [exact I|]. cbn. exists u. auto. Qed.
Lemma goes_star_end : forall x u, (forall t, refuses t x u) -> goes (PStar x) u (fun R => R = u).
Proof.
  intros x u H [|m] s HH; [exact I|]. cbn [Peg.run].
  specialize (H (mkt None (c_precs (user s))) m s HH (conj eq_refl I)). destruct (runc m x s); auto; [contradiction|].
  exists u. auto.
Qed.
Lemma goes_star_step : forall x u u1 P, goes x u (fun R => R = u1) -> goes (PStar x) u1 P ->
  P u -> goes (PStar x) u P.
Proof.
  intros x u u1 P H1 H2 HP [|m] s HH; [exact I|]. cbn [Peg.run]. specialize (H1 m s HH).
  destruct (runc m x s) as [s1|s1| |]; auto; [|exists u; auto]. destruct H1 as (R & H1 & ->). exact (H2 m s1 H1).
Qed.

(** ** Dotted names *)
Definition dotted1 : cexp :=
  PRule R_symbolic_name ⋅ PRule R_sp ⋅ PRule R_DOT ⋅ PRule R_sp ⋅ PAct (TDo [SStrAppend (B ".")]).
Definition bq (v : bytes) : bytes := B "`" ++ v ++ B "`".
Definition fact_dot : cexp -> list tok -> verdict := tight (fun e w =>
  match e, w with
  | PRule R_symbolic_name, (Ho 0 _) :: w' => FTake 0 w'
  | PChar "."%char, [Ho 9 _] => FFail
  | _, _ => FNone
  end).
Lemma not_char : forall t c d R, c <> d -> refuses t (PChar c) (d :: R).
Proof.
  intros t c d R H. replace (d :: R) with (text (two [] R) [Ho 9 d]) by (text_; reflexivity).
  eapply (refuse_of col off inp (two [] R) (one_eff HNone) nofact 9 (PChar c) [Ho 9 d] t); [|reflexivity|constructor].
  cbn. rewrite (beq_neq c d) by congruence. reflexivity.
Qed.
Lemma dotted_stop : forall t v c R, ~ In "`"%char v -> gapfree (c :: R) -> c <> "."%char -> refuses t dotted1 (bq v ++ B " " ++ c :: R).
Proof.
  intros t v c R HV HG HC.
  replace (bq v ++ B " " ++ c :: R) with (text (two (v ++ ["`"%char]) R) [Ho 0 "`"%char; Kn " "%char; Ho 9 c]) by (unfold bq; text_; reflexivity).
  eapply (refuse_of col off inp (two (v ++ ["`"%char]) R) (one_eff (HAppend v)) fact_dot 60 dotted1); [run_fail|reflexivity|].
  obs_ ltac:(first [eapply ob_take; [cbn [one_eff]; text_; apply take_backquoted; exact HV|text_; reflexivity]
                   |apply ob_refuse; text_; apply not_char; congruence]).
Qed.
Lemma dotted_go : forall v c R, ~ In "`"%char v -> ~ In c [" "; "009"; "010"; "013"; "/"]%char ->
  goes dotted1 (bq v ++ B " . " ++ c :: R) (fun u => u = c :: R).
Proof.
  intros v c R HV HC.
  replace (bq v ++ B " . " ++ c :: R) with (text (two (v ++ ["`"%char]) R) [Ho 0 "`"%char; Kn " "%char; Kn "."%char; Kn " "%char; Ho 9 c]) by (unfold bq; text_; reflexivity).
  assert (HG : gapfree (c :: R)) by (left; eauto).
  eapply goes_to with (u' := text (two (v ++ ["`"%char]) R) [Ho 9 c]); [|text_; reflexivity].
  eapply (goes_of (two (v ++ ["`"%char]) R) (one_eff (HAppend v)) fact_dot 60 dotted1).
  intros t. split; [run_trun|]. split; [reflexivity|]. cbn [obs_of].
  obs_ ltac:(eapply ob_take; [cbn [one_eff]; text_; apply take_backquoted; exact HV|text_; reflexivity]).
Qed.
Lemma dotted_dots : forall v R, ~ In "`"%char v -> goes dotted1 (bq v ++ B " .." ++ R) (fun u => u = "."%char :: R).
Proof.
  intros v R HV.
  replace (bq v ++ B " .." ++ R) with (text (two (v ++ ["`"%char]) R) [Ho 0 "`"%char; Kn " "%char; Kn "."%char; Ho 9 "."%char]) by (unfold bq; text_; reflexivity).
  eapply goes_to with (u' := text (two (v ++ ["`"%char]) R) [Ho 9 "."%char]); [|text_; reflexivity].
  eapply (goes_of (two (v ++ ["`"%char]) R) (one_eff (HAppend v)) fact_dot 60 dotted1).
  intros t. split; [run_trun|]. split; [reflexivity|]. cbn [obs_of].
  obs_ ltac:(eapply ob_take; [cbn [one_eff]; text_; apply take_backquoted; exact HV|text_; reflexivity]).
Qed.
Definition name_end (u : bytes) : Prop :=
  (exists v c R, u = bq v ++ B " " ++ c :: R /\ ~ In "`"%char v /\ gapfree (c :: R) /\ c <> "("%char) \/ exists R, u = "."%char :: R.
Lemma no_name : forall t R, refuses t (PRule R_symbolic_name) ("."%char :: R).
Proof.
  intros t R. replace ("."%char :: R) with (text (two [] R) [Ho 9 "."%char]) by (text_; reflexivity).
  eapply (refuse_of col off inp (two [] R) (one_eff HNone) nofact 60 (PRule R_symbolic_name)); [run_fail|reflexivity|constructor].
Qed.
Lemma no_dotted : forall t R, refuses t dotted1 ("."%char :: R).
Proof.
  intros t R. replace ("."%char :: R) with (text (two [] R) [Ho 9 "."%char]) by (text_; reflexivity).
  eapply (refuse_of col off inp (two [] R) (one_eff HNone) nofact 60 dotted1); [run_fail|reflexivity|constructor].
Qed.
Lemma dotted_star : forall R, nocall R -> forall v, ~ In "`"%char v -> goes (PStar dotted1) (bq v ++ B " " ++ R) name_end.
Proof.
  intros R H. induction H as [c R H|R|R|v' R HV' HR IH]; intros v HV.
  - assert (HG : gapfree (c :: R)) by (apply nocall_gapfree; constructor; exact H).
    eapply goes_to; [apply goes_star_end; intros t; apply dotted_stop; auto; intros ->; apply H; cbn; auto 8|].
    left. exists v, c, R. repeat split; auto. intros ->. apply H. cbn. auto 8.
  - assert (HG : gapfree (B "/ " ++ R)) by (apply nocall_gapfree; constructor).
    eapply goes_to; [apply goes_star_end; intros t; apply dotted_stop; auto; discriminate|].
    left. exists v, "/"%char, (" "%char :: R). repeat split; auto. discriminate.
  - assert (HG : gapfree (B ".." ++ R)) by (apply nocall_gapfree; constructor).
    eapply goes_star_step; [apply dotted_dots; exact HV| |].
    + eapply goes_to; [apply goes_star_end; intros t; apply no_dotted|]. right. eauto.
    + left. exists v, "."%char, ("."%char :: R). repeat split; auto. discriminate.
  - assert (HG : gapfree (B ". `" ++ v' ++ B "` " ++ R)) by (apply nocall_gapfree; constructor; auto).
    eapply goes_star_step.
    + replace (bq v ++ B " " ++ B ". `" ++ v' ++ B "` " ++ R) with (bq v ++ B " . " ++ "`"%char :: v' ++ B "` " ++ R) by reflexivity.
      apply dotted_go; [exact HV|]. cbn [In]. intuition discriminate.
    + replace ("`"%char :: v' ++ B "` " ++ R) with (bq v' ++ B " " ++ R) by (unfold bq; cbn; rewrite <- !app_assoc; reflexivity).
      apply IH. exact HV'.
    + left. exists v, "."%char, (B " `" ++ v' ++ B "` " ++ R). repeat split; auto. discriminate.
Qed.

Definition fact_one : cexp -> list tok -> verdict := tight (fun e w =>
  match e, w with
  | PRule R_symbolic_name, (Ho 0 _) :: w' => FTake 0 w'
  | _, _ => FNone
  end).
Definition name_tail : cexp :=
  PPred (QDo TBlockEnd) ⋅ PAct (TDo [SLet LRet (RMk K_strbuf_function_name [])]) ⋅ PRule R_sp.
Lemma function_name_end : forall v R, ~ In "`"%char v -> nocall R ->
  goes (PRule R_function_name) (bq v ++ B " " ++ R) (fun u => exists c R', u = c :: R' /\ c <> "("%char).
Proof.
  intros v R HV HR. apply goes_rule.
  change (CG R_function_name) with (PPred (QDo TBlockStart) ⋅ PAct (TDo [SStrReset]) ⋅
    PErr (PStar dotted1 ⋅ PRule R_symbolic_name) (QErr (B "a function name")) ⋅ name_tail).
  eapply goes_seq; [apply goes_do|]. intros R1 ->. eapply goes_seq; [apply goes_act|]. intros R1 ->.
  eapply goes_seq.
  - apply goes_err. eapply goes_seq; [apply dotted_star; eassumption|].
    intros u [(v1 & c & R1 & -> & HV1 & HG & HC)|(R1 & ->)].
    + apply goes_to with (u' := B " " ++ c :: R1); [|exact (ex_intro _ c (ex_intro _ R1 (conj eq_refl (conj HG HC))) : (fun u => exists c R1, u = B " " ++ c :: R1 /\ gapfree (c :: R1) /\ c <> "("%char) _)].
      replace (bq v1 ++ B " " ++ c :: R1) with (text (two (v1 ++ ["`"%char]) R1) [Ho 0 "`"%char; Kn " "%char; Ho 9 c]) by (unfold bq; text_; reflexivity).
      eapply goes_to with (u' := text (two (v1 ++ ["`"%char]) R1) [Kn " "%char; Ho 9 c]); [|text_; reflexivity].
      eapply (goes_of (two (v1 ++ ["`"%char]) R1) (one_eff (HAppend v1)) fact_one 60).
      intros t. split; [run_trun|]. split; [reflexivity|]. cbn [obs_of].
      obs_ ltac:(eapply ob_take; [cbn [one_eff]; text_; apply take_backquoted; exact HV1|text_; reflexivity]).
    + apply goes_not. intros t. apply no_name.
  - intros u (c & R1 & -> & HG & HC).
    apply goes_to with (u' := c :: R1); [|eauto].
    replace (B " " ++ c :: R1) with (text (two [] R1) [Kn " "%char; Ho 9 c]) by (text_; reflexivity).
    eapply goes_to with (u' := text (two [] R1) [Ho 9 c]); [|text_; reflexivity].
    eapply (goes_of (two [] R1) (one_eff HNone) fact_one 60).
    intros t. split; [run_trun|]. split; [reflexivity|]. cbn [obs_of]. obs_ fail.
Qed.
Lemma no_call : forall t x f v R, CypherRun.bal 0 (bind 0 R_function_name ⋅ (PRule R_LEFT_PAREN ⋅ x)) = Some (0, f) -> f = None \/ f = Some 0 ->
  ~ In "`"%char v -> nocall R -> refuses t (bind 0 R_function_name ⋅ (PRule R_LEFT_PAREN ⋅ x)) (bq v ++ B " " ++ R).
Proof.
  intros t x f v R HB HF HV HR m s HH [HS _].
  pose proof (keeps_precs col off inp m (bind 0 R_function_name ⋅ (PRule R_LEFT_PAREN ⋅ x)) s f HB HF) as HK.
  assert (HN : goes (bind 0 R_function_name ⋅ (PRule R_LEFT_PAREN ⋅ x)) (bq v ++ B " " ++ R) (fun _ => False)).
  { eapply goes_seq.
    - unfold bind. eapply goes_seq; [apply function_name_end; assumption|]. intros u (c & R1 & -> & HC).
      eapply goes_to; [apply goes_act|]. exact (ex_intro _ c (ex_intro _ R1 (conj eq_refl HC)) : (fun u => exists c R1, u = c :: R1 /\ c <> "("%char) _).
    - intros u (c & R1 & -> & HC). eapply goes_seq with (P := fun _ => False); [|intros ? []].
      apply goes_not. intros t'.
      replace (c :: R1) with (text (two [] R1) [Ho 9 c]) by (text_; reflexivity).
      eapply (refuse_of col off inp (two [] R1) (one_eff HNone) nofact 9 (PRule R_LEFT_PAREN) [Ho 9 c] t'); [|reflexivity|].
      { cbn -[beq]. rewrite (beq_neq "(" c) by congruence. reflexivity. }
      constructor. }
  specialize (HN m s HH). destruct (runc m _ s) as [s'|s'| |]; auto; [destruct HN as (? & ? & [])|congruence].
Qed.

Definition fact_ident : cexp -> list tok -> verdict := tight (fun e w =>
  match e, w with
  | PSeq (PSeq (PRule R_function_name) _) _, [Ho 0 _; Kn _; Ho 9 _] => FFail
  | PRule R_symbolic_name, (Ho 0 _) :: w' => FTake 0 w'
  | _, _ => FNone
  end).
Lemma take_ident : forall t v R, ~ In "`"%char v -> nocall R ->
  takes t (PRule R__atom) (bq v ++ B " ") R (HNode (T T_IDENTIFIER [TStr v])).
Proof.
  intros t v R HV HR. pose proof (nocall_gapfree R HR) as HG. open_gap R HG.
  eapply (take_of col off inp (two (v ++ ["`"%char]) R') (one_eff (HAppend v)) fact_ident 200 (PRule R__atom) [Ho 0 "`"%char; Kn " "%char; Ho 9 c] t);
    [run_trun|reflexivity| |apply node_ok; run_node|unfold bq; text_; reflexivity|text_; reflexivity].
  obs_ ltac:(first [eapply ob_take; [cbn [one_eff]; text_; apply take_backquoted; exact HV|text_; reflexivity]
    |apply ob_refuse; text_; replace ("`"%char :: v ++ "`"%char :: " "%char :: c :: R') with (bq v ++ B " " ++ c :: R') by (unfold bq; text_; reflexivity);
     eapply no_call; [vm_compute; reflexivity|auto|exact HV|exact HR]]).
Qed.
End Name.
