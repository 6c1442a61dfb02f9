(** * From matches to actions: which actions a parse executes, and that they
    cannot fail *)
From Coq Require Import List Bool Arith ZArith NArith Lia Sorted.
From Verif Require Import Peg PegProofs PegThunks LineSafe QuickModel QuickSpec QuickProofs QuickProps
  CypherSyntax CypherGrammar OperModel ErrModel CypherMatch CypherInv
  AstTypes AstModel CypherBuild CypherExec CypherParse CypherRound CypherSpec ExecRange CypherLoop
  CypherChain UtilProofs ErrChain AstSpec SafeSpec NodeHeld Flow FlowSound.
Import ListNotations.
Opaque parse_one cfuel.
Strategy expand [crun].

(** ** The actions left by a match *)
Section Emit.
Variables (col : coloring) (off : position) (inp : bytes) (G : rule -> cexp).
Notation runc := (run CG (get_of inp) (cprun col off)).
Notation cst := (pst action cuser).

Definition leaves (e : cexp) (s s' : cst) : Prop :=
  exists l, emits G e l /\ thunks s' = rev l ++ thunks s.

Definition adapted : Prop := forall n r s s',
  (forall m e s s', m <= n -> runc m e s = ROk s' -> leaves e s s') ->
  runc n (CG r) s = ROk s' -> leaves (G r) s s'.

Lemma leaves_nil : forall e (s s' : cst), emits G e [] -> thunks s' = thunks s -> leaves e s s'.
Proof. intros e s s' H1 H2. exists []. auto. Qed.

Lemma leaves_seq : forall e1 e2 e s s1 s2, leaves e1 s s1 -> leaves e2 s1 s2 ->
  (forall l1 l2, emits G e1 l1 -> emits G e2 l2 -> emits G e (l1 ++ l2)) -> leaves e s s2.
Proof.
  intros e1 e2 e s s1 s2 [l1 [A1 A2]] [l2 [B1 B2]] H. exists (l1 ++ l2). split; [auto|].
  rewrite B2, A2, rev_app_distr, app_assoc. reflexivity.
Qed.

Lemma run_leaves : adapted -> forall n e s s', runc n e s = ROk s' -> leaves e s s'.
Proof.
  intros HA. induction n as [n IH] using lt_wf_ind. intros e s s' Hx. destruct n as [|n]; [discriminate|].
  assert (IH' : forall m e s s', m <= n -> runc m e s = ROk s' -> leaves e s s')
    by (intros; eapply (IH m); eauto; lia).
  clear IH. destruct e; cbn [Peg.run] in Hx.
  - destruct (get_of inp (pos s)); [|discriminate]. injection Hx as <-. apply leaves_nil; [constructor|reflexivity].
  - destruct (get_of inp (pos s)); [destruct (beq c a)|]; try discriminate. injection Hx as <-. apply leaves_nil; [constructor|reflexivity].
  - destruct (match_str _ s0 (pos s) (pos s)); [|discriminate]. injection Hx as <-. apply leaves_nil; [constructor|reflexivity].
  - destruct (get_of inp (pos s)); [destruct (in_class cs a)|]; try discriminate. injection Hx as <-. apply leaves_nil; [constructor|reflexivity].
  - destruct (runc n (CG r) s) as [s1|s1| |] eqn:H1; try discriminate. injection Hx as <-.
    destruct (HA n r s s1 IH' H1) as [l [L1 L2]]. exists l. split; [constructor; auto|auto].
  - destruct (runc n e1 s) as [s1|s1| |] eqn:H1; try discriminate.
    eapply leaves_seq; [exact (IH' n _ _ _ (le_n _) H1)|exact (IH' n _ _ _ (le_n _) Hx)|intros; constructor; auto].
  - destruct (runc n e1 s) as [s1|s1| |] eqn:H1; try discriminate.
    + injection Hx as <-. destruct (IH' n _ _ _ (le_n _) H1) as [l [L1 L2]]. exists l. split; [apply em_alt1; auto|auto].
    + destruct (IH' n _ _ _ (le_n _) Hx) as [l [L1 L2]]. exists l. split; [apply em_alt2; auto|auto].
  - destruct (runc n e s) as [s1|s1| |] eqn:H1; try discriminate.
    + eapply leaves_seq; [exact (IH' n _ _ _ (le_n _) H1)|exact (IH' n _ _ _ (le_n _) Hx)|intros; constructor; auto].
    + injection Hx as <-. apply leaves_nil; [constructor|reflexivity].
  - destruct (runc n e s) as [s1|s1| |] eqn:H1; try discriminate.
    eapply leaves_seq; [exact (IH' n _ _ _ (le_n _) H1)|exact (IH' n _ _ _ (le_n _) Hx)|intros; constructor; auto].
  - destruct (runc n e s) as [s1|s1| |] eqn:H1; try discriminate.
    + injection Hx as <-. destruct (IH' n _ _ _ (le_n _) H1) as [l [L1 L2]]. exists l. split; [apply em_query; auto|auto].
    + injection Hx as <-. apply leaves_nil; [constructor|reflexivity].
  - destruct (runc n e s) as [s1|s1| |] eqn:H1; try discriminate. injection Hx as <-. apply leaves_nil; [constructor|reflexivity].
  - destruct (runc n e s) as [s1|s1| |] eqn:H1; try discriminate. injection Hx as <-. apply leaves_nil; [constructor|reflexivity].
  - injection Hx as <-. exists [(a, pos s)]. split; [constructor|reflexivity].
  - unfold run_pred in Hx. destruct (cprun col off q (pos s) (get_of inp (pos s)) (user s)) as [[[b u] l]|] eqn:Hc; [|discriminate].
    destruct b; [|discriminate]. injection Hx as <-.
    destruct q; cbn [cprun] in Hc;
      try (destruct (c_op (user s)); [|discriminate]);
      try (destruct (do_err _ _ _ _ _); [|discriminate]);
      injection Hc; intros; subst;
      try (apply leaves_nil; [apply em_pred; congruence|reflexivity]).
    exists [(a, pos s)]. split; [constructor|reflexivity].
  - destruct (runc n e s) as [s1|s1| |] eqn:H1; try discriminate.
    + injection Hx as <-. destruct (IH' n _ _ _ (le_n _) H1) as [l [L1 L2]]. exists l. split; [constructor; auto|auto].
    + destruct (run_pred (get_of inp) (cprun col off) q s1); discriminate.
Qed.

End Emit.

Lemma adapted_CG : forall col off inp, adapted col off inp CG.
Proof. intros col off inp n r s s' IH Hx. exact (IH n _ _ _ (le_n _) Hx). Qed.

Lemma ssorted_upto : forall l c d, StronglySorted le (c :: map snd l) -> Forall (fun t => snd t <= d) l -> c <= d ->
  upto c l d.
Proof.
  induction l as [|[t p] l IH]; intros c d H1 H2 H3; cbn; [exact H3|]. inversion H1; subst. inversion H2; subst.
  inversion H5; subst. split; [auto|]. apply IH; auto.
Qed.

(** ** The tables *)
Definition checked (strict : bool) (G : rule -> cexp) (l : list (option aenv)) : bool :=
  forallb (fun r => negb (bad_rule strict G l r)) all_rules.

Lemma checked_ok : forall strict G l, checked strict G l = true -> forall r, inline r = false ->
  match lookup l r, a_exec strict G inline (lookup l) a_fuel (G r) entry_env with
  | Some m, AOk x => env_le x m = true
  | _, ABot => True
  | _, _ => False
  end.
Proof.
  intros strict G l H r Hi. unfold checked in H. rewrite forallb_forall in H. specialize (H r (all_rules_complete r)).
  unfold bad_rule in H. rewrite Hi, negb_involutive in H. cbn [orb] in H.
  destruct (lookup l r), (a_exec _ _ _ _ _ _ _); auto; discriminate.
Qed.

(** ** A round *)

(** how a round ends: one block, nothing pending, the result among its children *)
Definition final (ty : tset) : aenv :=
  mkae [] [mkab 0 false []] AQuiet (OLen 0) RAny (RVal (mkav true ty (In_ 0))).

Definition ends (l : list (option aenv)) (r : rule) (ty : tset) : bool :=
  negb (inline r) && match lookup l r with Some m => env_le m (final ty) | None => false end.

Definition ended_well (ty : tset) (p : position) (lo : nat) (a : astate) : Prop :=
  a_frames a = [] /\ a_prev a = None /\ a_ops a = [] /\ a_lost a = [] /\
  exists b, a_blocks a = [b] /\ b_top b = true /\ b_seq b = [] /\ b_rstart b = p /\
    (forall n, a_result a = Some n -> tin (nty n) ty = true /\ In n (b_kids b)) /\
    Forall as_documented (forest (b_kids b)) /\ NoDup (map nid (forest (b_kids b))) /\
    Forall (fun n => lo <= nid n < a_fresh a) (forest (b_kids b)) /\ lo <= a_fresh a.

Lemma final_gam : forall e strict ps ret ty d lo a,
  gam e strict (mkbase [] (top_block ps) [] None [] ret None []) (final ty) d a -> inv a -> numbered_once lo a ->
  ended_well ty ps lo a.
Proof.
  intros e strict ps ret ty d lo a [fs [bs [X [[F1 F2] [[K1 K2] [P [[O1 O2] [R1 [R2 [E L]]]]]]]]]] HI [HN [HM HL]].
  cbn in *. rewrite app_nil_r in *. unfold ended_well.
  assert (fs = []) as -> by (inversion F2; auto).
  destruct bs as [|b [|]]; try contradiction. destruct K2 as [[ks [sq [G1 [G2 [G3 [G4 [G5 G6]]]]]]] [H1 [H2 H3]]].
  cbn in *. split; [auto|]. split; [destruct P; auto|].
  destruct X; [|discriminate]. split; [auto|]. split; [auto|]. exists b. split; [auto|]. split; [auto|].
  assert (EP : a_prev a = None) by (destruct P; auto).
  unfold inv, held in *. rewrite K1, EP, L in *. cbn in HI, HN, HM. rewrite !app_nil_r in *.
  subst sq. split; [auto|]. split; [auto|]. split; [|auto]. intros n En. rewrite En in R2. destruct R2 as [T [b' [B1 B2]]].
  injection B1 as <-. auto.
Qed.

Lemma start_gam : forall e strict ps ret sb cons errs fresh,
  (strict = true -> Forall (err_ok e) errs) ->
  gam e strict (mkbase [] (top_block ps) [] None [] ret None []) entry_env 0
    (mkas [] ret [top_block ps] None [] sb None false cons errs fresh []).
Proof.
  intros e strict ps ret sb cons errs fresh H. exists [], [top_block ps], []. unfold st, entry_env, errs_ok. cbn.
  split; [split; [auto|constructor]|]. split; [split; [auto|]|].
  - split; [apply blk_ok_fresh|]. unfold head_eq. auto.
  - auto 10.
Qed.

Lemma fine_and : forall strict Y (r : xres Y) (P Q : Y -> Prop), fine strict r P -> (forall y, r = XOk y -> Q y) ->
  fine strict r (fun y => P y /\ Q y).
Proof. intros strict Y [y| | |] P Q H1 H2; cbn in *; auto. Qed.

Lemma round_flow_of : forall cf la r inp y strict G l ty,
  checked strict G l = true -> ends l r ty = true ->
  forall s, crun (cf_color cf) (y_off y) (cfuel inp) inp (PRule r) (match_start y) = ROk s ->
  leaves G (PRule r) (match_start y) s ->
  let e := x_of la inp y (c_lines (user s)) (pos s) in
  (strict = true -> Forall (err_ok e) (et_errs (c_et (user s)))) ->
  fine strict (exec e (rev (thunks s))
    (mkas [] (y_ret y) [top_block (cf_position cf)] None [] (y_sb y) None false
          (y_consumed y) (et_errs (c_et (user s))) (y_fresh y) [])) (ended_well ty (cf_position cf) (y_fresh y)).
Proof.
  intros cf la r inp y strict G l ty HC HE s Hx HL e He. unfold crun in Hx. revert Hx. generalize (cfuel inp). intros k Hx.
  assert (HZ : In 0 (c_lines (user s))).
  { pose proof (run_zero (cf_color cf) (y_off y) inp k (PRule r) (match_start y)) as Hz.
    rewrite Hx in Hz. apply Hz. left. reflexivity. }
  assert (HP : forall p, p <= e_pos e -> exists ps, x_position e p = XOk ps /\ offset ps = p + offset (e_off e)).
  { intros p _. exists (at_byte (y_off y) (c_lines (user s)) p). unfold x_position, e. cbn [e_off e_lines x_of].
    rewrite at_byte_some by exact HZ. split; [reflexivity|apply at_byte_offset]. }
  assert (HU : upto 0 (rev (thunks s)) (pos s)).
  { assert (HT : tsorted s) by (eapply run_tsorted; [|exact Hx]; split; constructor).
    destruct HT as [T1 T2]. apply ssorted_upto; [|apply Forall_rev; exact T2|apply Nat.le_0_l].
    constructor; [apply ssorted_rev; exact T1|]. apply Forall_forall. intros; lia. }
  destruct HL as [l0 [L1 L2]]. cbn [match_start thunks] in L2. rewrite app_nil_r in L2.
  rewrite L2, rev_involutive in *.
  unfold ends in HE. apply andb_prop in HE. destruct HE as [Hi HE]. apply negb_true_iff in Hi.
  inversion L1; subst.
  destruct (sound_all e strict HP G inline (lookup l) a_fuel (checked_ok _ _ _ HC) _ _ H0) as [S1 _].
  specialize (S1 a_fuel entry_env). pose proof (checked_ok _ _ _ HC r Hi) as K.
  destruct (lookup l r) as [m|]; [|discriminate].
  destruct (a_exec strict G inline (lookup l) a_fuel (G r) entry_env) as [| |x]; try contradiction.
  match goal with |- fine _ ?r _ => set (ex := r);
    assert (HS : forall z, ex = XOk z -> numbered_once (y_fresh y) z) end.
  { intros z Hz. unfold ex in Hz. apply exec_steps in Hz. destruct Hz as [ns Hz]. eapply steps_once; [exact Hz|].
    split; [|split]; constructor. }
  eapply fine_imp with (P := fun z => _ /\ numbered_once (y_fresh y) z); [eapply fine_and; [|exact HS]|].
  { eapply (S1 (mkbase [] (top_block (cf_position cf)) [] None [] (y_ret y) None [])); cbn.
    - exact I.
    - apply start_gam. exact He.
    - exact HU.
    - apply le_n.
    - constructor. }
  - intros a [[Ha HI] HO]. eapply final_gam; [|exact HI|exact HO]. eapply env_le_ok; [|exact HE|]; [exact I|]. eapply env_le_ok; [|exact K|exact Ha]. exact I.
Qed.

Lemma round_flow : forall cf la r inp y strict G l ty,
  adapted (cf_color cf) (y_off y) inp G -> checked strict G l = true -> ends l r ty = true ->
  forall s, crun (cf_color cf) (y_off y) (cfuel inp) inp (PRule r) (match_start y) = ROk s ->
  let e := x_of la inp y (c_lines (user s)) (pos s) in
  (strict = true -> Forall (err_ok e) (et_errs (c_et (user s)))) ->
  fine strict (exec e (rev (thunks s))
    (mkas [] (y_ret y) [top_block (cf_position cf)] None [] (y_sb y) None false
          (y_consumed y) (et_errs (c_et (user s))) (y_fresh y) [])) (ended_well ty (cf_position cf) (y_fresh y)).
Proof.
  intros cf la r inp y strict G l ty HA HC HE s Hx e He. eapply round_flow_of; eauto.
  unfold crun in Hx. exact (run_leaves _ _ _ G HA _ _ _ _ Hx).
Qed.

(** the outcomes of a round; [strict]: no assertion either *)
Lemma finish_flow : forall cf la inp y m strict ty,
  match m with
  | ROk s => fine strict (exec (x_of la inp y (c_lines (user s)) (pos s)) (rev (thunks s))
               (mkas [] (y_ret y) [top_block (cf_position cf)] None [] (y_sb y) None false
                 (y_consumed y) (et_errs (c_et (user s))) (y_fresh y) [])) (ended_well ty (cf_position cf) (y_fresh y)) /\
             c_precs (user s) = []
  | RStuck => strict = false
  | _ => False
  end ->
  match finish_one cf la inp y m with
  | RdOk _ _ a _ => ended_well ty (cf_position cf) (y_fresh y) a
  | RdAssert => strict = false
  | _ => False
  end.
Proof.
  intros cf la inp y m strict ty H. unfold finish_one. destruct m as [s| | |]; auto.
  destruct H as [H Hc]. change (mkxe inp (la inp (pos s)) (y_off y) (c_lines (user s)) (pos s))
    with (x_of la inp y (c_lines (user s)) (pos s)). destruct (exec _ _ _) as [a| | |]; cbn [fine] in H; auto.
  pose proof H as [W1 [W2 [W3 [W4 [b [W5 [W6 [W7 W8]]]]]]]]. rewrite W5, W6, W7, W2, W3, Hc. exact H.
Qed.

Lemma round_safe : forall cf la r inp y G l ty, entry r ->
  adapted (cf_color cf) (y_off y) inp G -> checked false G l = true -> ends l r ty = true ->
  match parse_one cf la r inp y with
  | RdOk _ _ a _ => ended_well ty (cf_position cf) (y_fresh y) a
  | RdAssert => True
  | _ => False
  end.
Proof.
  intros cf la r inp y G l ty Hr HA HC HE. rewrite parse_one_eq.
  pose proof (round_flow cf la r inp y false G l ty HA HC HE) as HF.
  pose proof (match_not_fuel (cf_color cf) (y_off y) inp r (match_start y) (Nat.le_0_l _)) as N1.
  pose proof (fun s' => match_not_fail (cf_color cf) (y_off y) inp (cfuel inp) r (match_start y) s' Hr) as N2.
  pose proof (match_precs (cf_color cf) (y_off y) inp (cfuel inp) r (match_start y)) as N3.
  pose proof (finish_flow cf la inp y (crun (cf_color cf) (y_off y) (cfuel inp) inp (PRule r) (match_start y)) false ty) as HX.
  unfold crun in *.
  destruct (run CG (get_of inp) (cprun (cf_color cf) (y_off y)) (cfuel inp) (PRule r) (match_start y)) as [s|s| |].
  - assert (HY := HX (conj (HF s eq_refl ltac:(discriminate)) (N3 s eq_refl))).
    destruct (finish_one _ _ _ _ _); auto.
  - exfalso. eapply N2. reflexivity.
  - exact I.
  - exfalso. apply N1. reflexivity.
Qed.

Lemma round_strict_of : forall cf la r inp y G l ty, entry r -> bq_ok inp -> quiet y -> inp <> [] ->
  (forall p, List.length inp <= la inp p) ->
  (forall s, crun (cf_color cf) (y_off y) (cfuel inp) inp (PRule r) (match_start y) = ROk s ->
    leaves G (PRule r) (match_start y) s) -> checked true G l = true -> ends l r ty = true ->
  match parse_one cf la r inp y with
  | RdOk _ _ a _ => ended_well ty (cf_position cf) (y_fresh y) a
  | _ => False
  end.
Proof.
  intros cf la r inp y G l ty Hr Hbq Hq Hne Hla HL HC HE. rewrite parse_one_eq.
  pose proof (round_flow_of cf la r inp y true G l ty HC HE) as HF.
  destruct (match_ok (cf_color cf) (y_off y) inp r (match_start y) Hbq Hr (Nat.le_0_l _)
     (LI_zero _) (et_ok_start _ _ _ _ (proj2 Hq) (proj1 Hq))) as [s [E [H1 H2]]].
  pose proof (match_precs (cf_color cf) (y_off y) inp (cfuel inp) r (match_start y)) as N3.
  pose proof (finish_flow cf la inp y (crun (cf_color cf) (y_off y) (cfuel inp) inp (PRule r) (match_start y)) true ty) as HX.
  unfold crun in *. rewrite E in *.
  assert (HErr : Forall (err_ok (x_of la inp y (c_lines (user s)) (pos s))) (et_errs (c_et (user s)))).
  { destruct H2 as [_ _ D3 _ _ _]. eapply Forall_impl; [|exact D3]. intros z [q [ls [Q1 [_ [_ [Q2 _]]]]]].
    right. cbn [x_of e_limit e_inp e_off]. rewrite Q2, firstn_all2 by apply Hla.
    rewrite walk_offset_firstn by exact Q1. replace (offset (y_off y) + q - offset (y_off y)) with q by lia.
    destruct (line_context_of inp q 80) as [c [o [-> _]]]; [lia|exact Hne|exact Q1|discriminate]. }
  assert (HY := HX (conj (HF s eq_refl (HL s eq_refl) (fun _ => HErr)) (N3 s eq_refl))).
  destruct (finish_one _ _ _ _ _); auto; discriminate.
Qed.

Lemma round_strict : forall cf la r inp y G l ty, entry r -> bq_ok inp -> quiet y -> inp <> [] ->
  (forall p, List.length inp <= la inp p) ->
  adapted (cf_color cf) (y_off y) inp G -> checked true G l = true -> ends l r ty = true ->
  match parse_one cf la r inp y with
  | RdOk _ _ a _ => ended_well ty (cf_position cf) (y_fresh y) a
  | _ => False
  end.
Proof.
  intros cf la r inp y G l ty Hr Hbq Hq Hne Hla HA HC HE. apply (round_strict_of cf la r inp y G l ty); auto.
  intros s Hx. unfold crun in Hx. exact (run_leaves _ _ _ G HA _ _ _ _ Hx).
Qed.

(** ** The loop *)
Lemma ploop_safe : forall k cf la cb fl inp o y done last,
  (forall inp y, match parse_one cf la (start_rule fl) inp y with
     | RdInvalid | RdUninit => False | _ => True end) ->
  ploop k cf la cb fl inp o y done last <> PInvalid /\
  ploop k cf la cb fl inp o y done last <> PUninit.
Proof.
  intros k cf la cb fl inp o y done last H. revert inp o y done last.
  induction k as [|k IH]; intros inp o y done last; [split; discriminate|]. cbn [ploop].
  specialize (H inp y).
  destruct (parse_one cf la (start_rule fl) inp y) as [p lines a u| | | | |]; try (split; congruence).
  destruct (Nat.eqb (a_consumed a) 0); [destruct (_ && _ && _); split; discriminate|].
  destruct (input_position _ _ _) as [en|]; [|split; discriminate].
  destruct (Z.ltb 0 _); [split; discriminate|].
  destruct (Z.ltb _ 0); [split; discriminate|].
  destruct (_ || _); [split; discriminate|]. apply IH.
Qed.

Lemma ploop_strict : forall k cf la cb fl (P : bytes -> Prop), (forall s p, P s -> P (skipn p s)) ->
  (forall inp y, P inp -> quiet y -> inp <> [] -> match parse_one cf la (start_rule fl) inp y with
     | RdOk _ _ _ _ => True | _ => False end) ->
  forall inp o y done last, List.length inp < k -> P inp -> quiet y ->
  exists ret segs last', ploop k cf la cb fl inp o y done last = PRet ret segs last'.
Proof.
  intros k cf la cb fl P HP H. induction k as [|k IH]; intros inp o y done last Hk Hi Hq; [lia|]. cbn [ploop].
  destruct inp as [|c inp0].
  - destruct (round_nil cf la (start_rule fl) y (start_entry fl) (proj1 Hq)) as [lines [a [u [E [E1 [E2 [E3 E4]]]]]]].
    rewrite E, E4, E1, E2, E3. cbn. eauto.
  - remember (c :: inp0) as inp. specialize (H inp y Hi Hq ltac:(subst; discriminate)).
    destruct (parse_one cf la (start_rule fl) inp y) as [p lines a u| | | | |] eqn:Hr; try contradiction.
    pose proof (round_ok _ _ _ _ _ _ _ _ _ (start_entry fl) Hr) as [F1 F2 F3 F4 F5].
    assert (0 < p) by (apply F2; subst; discriminate).
    destruct (Nat.eqb_spec (a_consumed a) 0) as [E0|E0]; [lia|].
    rewrite at_byte_some by exact F5.
    destruct (Z.ltb 0 _); [eauto|]. destruct (Z.ltb _ 0); [eauto|]. destruct (_ || _); [eauto|].
    apply IH; [rewrite skipn_length; lia|apply HP; auto|apply quiet_next].
Qed.
