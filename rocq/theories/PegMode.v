(** * Static analyses that distinguish the end of input

    The error-recovery rules of lib/src/parser.leg (_directive, _statement,
    _clauses) call themselves after "(EOF | skip-to-...)".  EOF consumes
    nothing, so these rules are left recursive for an analysis that does not
    know that EOF only matches at the end of the input, where an earlier
    alternative of the same rule already matches.  The analyses below
    therefore work per mode: [NE] not at the end of input, [AE] at the end.

    These are decision procedures about grammars, not models of code; they are
    proved sound here and run by computation on CypherGrammar.v. *)
From Verif Require Import Peg PegWf PegProofs.

Inductive mode : Set := NE | AE.

Section Defs.
Context {R A Q : Type}.
Notation pexp := (pexp R A Q).
Variable su : mode -> R -> bool.    (* rule never fails *)
Variable nl : mode -> R -> bool.    (* rule may succeed without consuming *)
Variable sq : Q -> bool.            (* code that never answers "no" *)
Variable st : R -> bool.            (* rule never consumes input *)

(** [e] never consumes input *)
Fixpoint still (e : pexp) : bool :=
  match e with
  | PDot | PChar _ | PClass _ => false
  | PStr s => match s with [] => true | _ => false end
  | PRule r => st r
  | PSeq e1 e2 | PAlt e1 e2 => still e1 && still e2
  | PStar e | PPlus e | PQuery e | PErr e _ => still e
  | PAnd _ | PNot _ | PAct _ | PPred _ => true
  end.

(** [e], entered in mode [m], never fails *)
Fixpoint sure (m : mode) (e : pexp) : bool :=
  match e with
  | PDot => match m with NE => true | AE => false end
  | PChar _ | PClass _ => false
  | PStr s => match s with [] => true | _ => false end
  | PRule r => su m r
  | PSeq e1 e2 =>
      sure m e1 && sure m e2 &&
      match m with NE => still e1 || sure AE e2 | AE => true end
  | PAlt e1 e2 => sure m e1 || sure m e2
  | PStar _ | PQuery _ | PAct _ => true
  | PPlus e | PAnd e | PErr e _ => sure m e
  | PNot e => match m, e with AE, PDot => true | _, _ => false end
  | PPred q => sq q
  end.

(** [e], entered in mode [m], may succeed without consuming input *)
Fixpoint nul (m : mode) (e : pexp) : bool :=
  match e with
  | PDot | PChar _ | PClass _ => false
  | PStr s => match s with [] => true | _ => false end
  | PRule r => nl m r
  | PSeq e1 e2 => nul m e1 && nul m e2
  | PAlt e1 e2 => nul m e1 || negb (sure m e1) && nul m e2
  | PStar _ | PQuery _ | PAnd _ | PAct _ | PPred _ => true
  | PNot e => negb (sure m e)
  | PPlus e | PErr e _ => nul m e
  end.

Variable rk : mode -> R -> nat.
Variable kmax : nat.

(** every rule reachable in [e] before input is consumed has rank below [k] *)
Fixpoint wfm (m : mode) (k : nat) (e : pexp) : bool :=
  match e with
  | PDot | PChar _ | PStr _ | PClass _ | PAct _ | PPred _ => true
  | PRule r => Nat.ltb (rk m r) k
  | PSeq e1 e2 => wfm m k e1 && (negb (nul m e1) || wfm m k e2)
  | PAlt e1 e2 => wfm m k e1 && (sure m e1 || wfm m k e2)
  | PStar e | PPlus e => negb (nul m e) && wfm m k e
  | PQuery e | PAnd e | PNot e | PErr e _ => wfm m k e
  end.

(** what [e] continues with after consuming input is well formed too *)
Fixpoint later (e : pexp) : bool :=
  match e with
  | PDot | PChar _ | PStr _ | PClass _ | PAct _ | PPred _ | PRule _ => true
  | PSeq e1 e2 => later e1 && later e2 && (wfm NE kmax e2 && wfm AE kmax e2)
  | PAlt e1 e2 => later e1 && later e2
  | PStar e | PPlus e =>
      later e && (negb (nul NE e) && negb (nul AE e) && (wfm NE kmax e && wfm AE kmax e))
  | PQuery e | PAnd e | PNot e | PErr e _ => later e
  end.

Definition both (f : mode -> bool) : bool := f NE && f AE.

(** the table entries of a rule are justified *)
Definition wfm_rule (G : R -> pexp) (m : nat) (r : R) : bool :=
  implb (st r) (still (G r)) &&
  both (fun md => implb (su md r) (sure md (G r))) &&
  both (fun md => implb (nul md (G r)) (nl md r)) &&
  (both (fun md => wfm md (rk md r) (G r)) && later (G r)) &&
  both (fun md => Nat.ltb (rk md r) kmax) &&
  Nat.leb (esize (G r)) m.

End Defs.

Section Sound.
Context {R A Q U : Type}.
Variable G : R -> pexp R A Q.
Variable get : nat -> option ascii.
Variable prun : Q -> nat -> option ascii -> U -> option (bool * U * list A).
Variable len : nat.
Hypothesis get_len : forall p, get p <> None <-> p < len.
Notation pst := (pst A U).
Notation pexp := (pexp R A Q).
Notation run := (run G get prun).

Variable su : mode -> R -> bool.
Variable nl : mode -> R -> bool.
Variable sq : Q -> bool.
Variable st : R -> bool.
Variable rk : mode -> R -> nat.
Variables kmax m : nat.
Hypothesis tables : forall r, wfm_rule su nl sq st rk kmax G m r = true.
Hypothesis sq_ok : forall q p c u u' l, sq q = true -> prun q p c u <> Some (false, u', l).

Definition modeof (p : nat) : mode := if Nat.ltb p len then NE else AE.

Lemma modeof_NE : forall p, modeof p = NE -> p < len.
Proof. unfold modeof. intros p. destruct (Nat.ltb_spec p len); [auto|discriminate]. Qed.
Lemma modeof_AE : forall p, modeof p = AE -> len <= p.
Proof. unfold modeof. intros p. destruct (Nat.ltb_spec p len); [discriminate|auto]. Qed.
Lemma get_AE : forall p, modeof p = AE -> get p = None.
Proof.
  intros p H. apply modeof_AE in H. destruct (get p) eqn:E; auto.
  assert (get p <> None) by congruence. apply get_len in H0. lia.
Qed.
Lemma get_NE : forall p, modeof p = NE -> exists c, get p = Some c.
Proof.
  intros p H. apply modeof_NE in H. apply get_len in H. destruct (get p); [eauto|congruence].
Qed.
Lemma modeof_mono : forall p q, p <= q -> modeof p = AE -> modeof q = AE.
Proof.
  intros p q Hpq H. apply modeof_AE in H. unfold modeof.
  destruct (Nat.ltb_spec q len); [lia|auto].
Qed.
Lemma modeof_eq : forall p q, p = q -> modeof p = modeof q.
Proof. congruence. Qed.

Lemma both_spec : forall f md, both f = true -> f md = true.
Proof. unfold both. intros f md H. apply andb_true_iff in H. destruct md; tauto. Qed.

Lemma tab_su : forall md r, su md r = true -> sure su sq st md (G r) = true.
Proof.
  intros md r H. specialize (tables r). unfold wfm_rule in tables.
  repeat rewrite andb_true_iff in tables. destruct tables as [[[[[H0 H1] _] _] _] _].
  pose proof (both_spec _ md H1) as H2. cbn beta in H2. rewrite H in H2. exact H2.
Qed.
Lemma tab_nl : forall md r, nul su nl sq st md (G r) = true -> nl md r = true.
Proof.
  intros md r H. specialize (tables r). unfold wfm_rule in tables.
  repeat rewrite andb_true_iff in tables. destruct tables as [[[[_ H1] _] _] _].
  pose proof (both_spec _ md H1) as H2. cbn beta in H2. rewrite H in H2. exact H2.
Qed.
Lemma tab_wf : forall md r, wfm su nl sq st rk md (rk md r) (G r) = true.
Proof.
  intros md r. specialize (tables r). unfold wfm_rule in tables.
  repeat rewrite andb_true_iff in tables. destruct tables as [[[_ [H1 _]] _] _].
  exact (both_spec _ md H1).
Qed.
Lemma tab_later : forall r, later su nl sq st rk kmax (G r) = true.
Proof.
  intros r. specialize (tables r). unfold wfm_rule in tables.
  repeat rewrite andb_true_iff in tables. destruct tables as [[[_ [_ H1]] _] _]. exact H1.
Qed.
Lemma tab_rk : forall md r, rk md r < kmax.
Proof.
  intros md r. specialize (tables r). unfold wfm_rule in tables.
  repeat rewrite andb_true_iff in tables. destruct tables as [[_ H1] _].
  apply Nat.ltb_lt. exact (both_spec _ md H1).
Qed.
Lemma tab_sz : forall r, esize (G r) <= m.
Proof.
  intros r. specialize (tables r). unfold wfm_rule in tables.
  repeat rewrite andb_true_iff in tables. destruct tables as [_ H1].
  apply Nat.leb_le. exact H1.
Qed.

Lemma tab_st : forall r, st r = true -> still st (G r) = true.
Proof.
  intros r H. specialize (tables r). unfold wfm_rule in tables.
  repeat rewrite andb_true_iff in tables. destruct tables as [[[[[H0 _] _] _] _] _].
  rewrite H in H0. exact H0.
Qed.

Lemma still_sound : forall n e s s', still st e = true -> run n e s = ROk s' -> pos s' = pos s.
Proof.
  induction n as [|n IH]; intros e s s' Hs Hr; [discriminate|].
  destruct e; cbn [Peg.run still] in *; try discriminate.
  - destruct s0; [|discriminate]. cbn in Hr. injection Hr as <-. reflexivity.
  - destruct (Peg.run G get prun n (G r) s) eqn:Hx; try discriminate. injection Hr as <-.
    eapply IH; [|exact Hx]. apply tab_st; auto.
  - apply andb_true_iff in Hs. destruct Hs as [H1 H2].
    destruct (Peg.run G get prun n e1 s) as [s1| | |] eqn:Hx; try discriminate.
    apply IH in Hx; auto. apply IH in Hr; auto. congruence.
  - apply andb_true_iff in Hs. destruct Hs as [H1 H2].
    destruct (Peg.run G get prun n e1 s) as [s1|s1| |] eqn:Hx; try discriminate.
    + injection Hr as <-. eauto.
    + apply IH in Hr; auto.
  - destruct (Peg.run G get prun n e s) as [s1|s1| |] eqn:Hx; try discriminate.
    + apply IH in Hx; auto. apply IH in Hr; auto. congruence.
    + injection Hr as <-. reflexivity.
  - destruct (Peg.run G get prun n e s) as [s1|s1| |] eqn:Hx; try discriminate.
    apply IH in Hx; auto. apply IH in Hr; auto. congruence.
  - destruct (Peg.run G get prun n e s) as [s1|s1| |] eqn:Hx; try discriminate.
    + injection Hr as <-. eauto.
    + injection Hr as <-. reflexivity.
  - destruct (Peg.run G get prun n e s) as [s1|s1| |] eqn:Hx; try discriminate.
    injection Hr as <-. reflexivity.
  - destruct (Peg.run G get prun n e s) as [s1|s1| |] eqn:Hx; try discriminate.
    injection Hr as <-. reflexivity.
  - injection Hr as <-. reflexivity.
  - unfold run_pred in Hr. destruct (prun q _ _ _) as [[[[] u] l]|]; try discriminate.
    injection Hr as <-. reflexivity.
  - destruct (Peg.run G get prun n e s) as [s1|s1| |] eqn:Hx; try discriminate.
    + injection Hr as <-. eauto.
    + unfold run_pred in Hr. destruct (prun q _ _ _) as [[[[] u] l]|]; discriminate.
Qed.

Lemma run_pred_sure : forall q s s', sq q = true -> run_pred get prun q s <> RFail s'.
Proof.
  intros q s s' H. unfold run_pred. pose proof (sq_ok q (pos s) (get (pos s)) (user s)) as K.
  destruct (prun q (pos s) (get (pos s)) (user s)) as [[[[] u] l]|]; try discriminate.
  exfalso. eapply K; eauto.
Qed.

(** A sure expression does not fail. *)
Lemma sure_sound : forall n e s s',
  sure su sq st (modeof (pos s)) e = true -> run n e s <> RFail s'.
Proof.
  induction n as [|n IH]; intros e s s' Hs; [discriminate|].
  destruct e; cbn [Peg.run sure] in *; try discriminate.
  - destruct (modeof (pos s)) eqn:Hm; [|discriminate].
    destruct (get_NE _ Hm) as [c ->]. discriminate.
  - destruct s0; [|discriminate]. cbn. discriminate.
  - pose proof (tab_su _ _ Hs) as Hs'.
    pose proof (fun s' => IH _ _ s' Hs') as K. destruct (Peg.run G get prun n (G r) s); try discriminate.
    exfalso. eapply K; eauto.
  - repeat rewrite andb_true_iff in Hs. destruct Hs as [[H1 H2] H3].
    pose proof (fun s' => IH _ _ s' H1) as K1.
    destruct (Peg.run G get prun n e1 s) as [s1|s1| |] eqn:Hx; try discriminate.
    + apply IH. pose proof Hx as Hx0. apply run_ok_pos in Hx.
      destruct (modeof (pos s)) eqn:Hm.
      * destruct (modeof (pos s1)) eqn:Hm1; auto.
        apply orb_true_iff in H3. destruct H3 as [H3|H3]; auto.
        apply (still_sound _ _ _ _ H3) in Hx0. rewrite Hx0 in Hm1. congruence.
      * rewrite (modeof_mono _ _ Hx Hm). auto.
    + exfalso. eapply K1; eauto.
  - apply orb_true_iff in Hs. destruct (Peg.run G get prun n e1 s) as [s1|s1| |] eqn:Hx; try discriminate.
    destruct Hs as [Hs|Hs].
    + exfalso. eapply IH; eauto.
    + apply IH. cbn. auto.
  - destruct (Peg.run G get prun n e s) as [s1|s1| |] eqn:Hx; try discriminate.
    apply IH. reflexivity.
  - destruct (Peg.run G get prun n e s) as [s1|s1| |] eqn:Hx; try discriminate.
    + apply IH. reflexivity.
    + exfalso. eapply IH; eauto.
  - destruct (Peg.run G get prun n e s) as [s1|s1| |] eqn:Hx; discriminate.
  - destruct (Peg.run G get prun n e s) as [s1|s1| |] eqn:Hx; try discriminate.
    exfalso. eapply IH; eauto.
  - destruct (modeof (pos s)) eqn:Hm; [discriminate|].
    destruct e; try discriminate. destruct n; [discriminate|]. cbn [Peg.run].
    rewrite (get_AE _ Hm). discriminate.
  - apply run_pred_sure. auto.
  - destruct (Peg.run G get prun n e s) as [s1|s1| |] eqn:Hx; try discriminate.
    exfalso. eapply IH; eauto.
Qed.

(** A non-nullable expression moves forward if it succeeds. *)
Lemma nul_sound : forall n e s s',
  run n e s = ROk s' -> nul su nl sq st (modeof (pos s)) e = false -> pos s < pos s'.
Proof.
  induction n as [|n IH]; intros e s s' Hr Hn; [discriminate|].
  destruct e; cbn [Peg.run nul] in *; try discriminate.
  - destruct (get (pos s)); [injection Hr as <-; cbn; lia|discriminate].
  - destruct (get (pos s)); [destruct (beq c a); [injection Hr as <-; cbn; lia|]|]; discriminate.
  - destruct s0 as [|c0 s0]; [discriminate|].
    destruct (match_str get (c0 :: s0) (pos s) (pos s)) eqn:Hm; [|discriminate].
    injection Hr as <-. apply match_str_inl in Hm. cbn in *. lia.
  - destruct (get (pos s)); [destruct (in_class cs a); [injection Hr as <-; cbn; lia|]|]; discriminate.
  - destruct (Peg.run G get prun n (G r) s) eqn:Hx; try discriminate.
    injection Hr as <-. eapply IH; eauto.
    destruct (nul su nl sq st (modeof (pos s)) (G r)) eqn:Hg; auto. apply tab_nl in Hg. congruence.
  - destruct (Peg.run G get prun n e1 s) as [s1| | |] eqn:Hx; try discriminate.
    pose proof (run_ok_pos _ _ _ _ _ _ _ Hx). pose proof (run_ok_pos _ _ _ _ _ _ _ Hr).
    destruct (Nat.eq_dec (pos s) (pos s1)) as [He|]; [|lia].
    apply andb_false_iff in Hn. destruct Hn as [Hn|Hn].
    + pose proof (IH _ _ _ Hx Hn). lia.
    + rewrite He in Hn. pose proof (IH _ _ _ Hr Hn). lia.
  - apply orb_false_iff in Hn. destruct Hn as [Hn1 Hn2].
    destruct (Peg.run G get prun n e1 s) as [s1|s1| |] eqn:Hx; try discriminate.
    + injection Hr as <-. eauto.
    + apply andb_false_iff in Hn2. destruct Hn2 as [Hn2|Hn2].
      * apply negb_false_iff in Hn2. exfalso. eapply sure_sound; eauto.
      * apply IH in Hr; auto.
  - destruct (Peg.run G get prun n e s) as [s1|s1| |] eqn:Hx; try discriminate.
    apply IH in Hx; auto. apply run_ok_pos in Hr. lia.
  - apply negb_false_iff in Hn.
    destruct (Peg.run G get prun n e s) as [s1|s1| |] eqn:Hx; try discriminate.
    exfalso. eapply sure_sound; eauto.
  - destruct (Peg.run G get prun n e s) as [s1|s1| |] eqn:Hx; try discriminate.
    + injection Hr as <-. eauto.
    + unfold run_pred in Hr. destruct (prun q _ _ _) as [[[[] u] l]|]; discriminate.
Qed.

Definition fpb (z : nat) : nat := kmax * m + z + m + 1.

Notation wfm := (wfm su nl sq st rk).
Notation later := (later su nl sq st rk kmax).

Lemma runm_terminates : forall z n (e : pexp) (s : pst) k,
  esize e <= z -> m <= z -> k <= kmax ->
  pos s <= len -> wfm (modeof (pos s)) k e = true -> later e = true ->
  (len - pos s) * fpb z + k * m + esize e <= n ->
  run n e s <> RFuel.
Proof.
  intros z. induction n as [|n IH]; intros e s k Hz Hmz Hk Hs Hw Hl Hn.
  { pose proof (esize_pos e).
    generalize dependent ((len - pos s) * fpb z). intros; lia. }
  assert (Hk' : k * m <= kmax * m) by (apply Nat.mul_le_mono_r; auto).
  assert (Later : forall e' s', esize e' <= z -> pos s < pos s' -> pos s' <= len ->
            wfm NE kmax e' = true -> wfm AE kmax e' = true -> later e' = true ->
            run n e' s' <> RFuel).
  { intros e' s' He' Hp' Hl' Hw1' Hw2' Hw3'. apply IH with (k := kmax); auto.
    { destruct (modeof (pos s')); auto. }
    assert (Hle : (len - pos s') * fpb z + fpb z <= (len - pos s) * fpb z).
    { replace ((len - pos s') * fpb z + fpb z)
        with ((S (len - pos s')) * fpb z) by (cbn; lia).
      apply Nat.mul_le_mono_r. lia. }
    pose proof (esize_pos e).
    generalize dependent ((len - pos s) * fpb z).
    generalize dependent ((len - pos s') * fpb z).
    unfold fpb. intros; lia. }
  assert (Same : forall e' s', esize e' <= z -> esize e' < esize e -> pos s' = pos s ->
            wfm (modeof (pos s)) k e' = true -> later e' = true -> run n e' s' <> RFuel).
  { intros e' s' He' Hlt Hp' Hw' Hl'. apply IH with (k := k); auto; rewrite Hp'; [auto|auto|].
    generalize dependent ((len - pos s) * fpb z). intros; lia. }
  pose proof (run_pos_bound G get prun len get_len) as PB.
  destruct e; cbn [Peg.run].
  - destruct (get (pos s)); discriminate.
  - destruct (get (pos s)); [destruct (beq c a)|]; discriminate.
  - destruct (match_str get s0 (pos s) (pos s)); discriminate.
  - destruct (get (pos s)); [destruct (in_class cs a)|]; discriminate.
  - cbn [PegMode.wfm] in Hw. apply Nat.ltb_lt in Hw.
    pose proof (tab_sz r) as Hsz.
    assert (run n (G r) s <> RFuel).
    { apply IH with (k := rk (modeof (pos s)) r); auto; try lia.
      - apply tab_wf.
      - apply tab_later.
      - cbn [esize] in Hn.
        assert (rk (modeof (pos s)) r * m + m <= k * m).
        { replace (rk (modeof (pos s)) r * m + m) with (S (rk (modeof (pos s)) r) * m) by (cbn; lia).
          apply Nat.mul_le_mono_r. lia. }
        lia. }
    destruct (Peg.run G get prun n (G r) s); try discriminate; auto.
  - cbn [PegMode.wfm PegMode.later] in Hw, Hl. repeat rewrite andb_true_iff in Hw. repeat rewrite andb_true_iff in Hl.
    destruct Hw as [Hw1 Hw2]. destruct Hl as [[Hl1 Hl2] [Hl3 Hl4]].
    cbn [esize] in *.
    assert (run n e1 s <> RFuel) as H1 by (apply Same; auto; lia).
    destruct (Peg.run G get prun n e1 s) as [s1| | |] eqn:Hx; try discriminate; auto.
    assert (pos s1 <= len) by (specialize (PB n e1 s Hs); rewrite Hx in PB; auto).
    pose proof (run_ok_pos _ _ _ _ _ _ _ Hx).
    destruct (Nat.eq_dec (pos s1) (pos s)) as [Heq|Hne].
    + apply orb_true_iff in Hw2. destruct Hw2 as [Hw2|Hw2].
      * apply negb_true_iff in Hw2. pose proof (nul_sound _ _ _ _ Hx Hw2). lia.
      * apply Same; auto; lia.
    + apply Later; auto; lia.
  - cbn [PegMode.wfm PegMode.later] in Hw, Hl. apply andb_true_iff in Hw. apply andb_true_iff in Hl.
    destruct Hw as [Hw1 Hw2]. destruct Hl as [Hl1 Hl2].
    cbn [esize] in *.
    assert (run n e1 s <> RFuel) as H1 by (apply Same; auto; lia).
    destruct (Peg.run G get prun n e1 s) as [s1|s1| |] eqn:Hx; try discriminate; auto.
    apply orb_true_iff in Hw2. destruct Hw2 as [Hw2|Hw2].
    + exfalso. eapply sure_sound; eauto.
    + apply Same; auto; lia.
  - cbn [PegMode.wfm PegMode.later] in Hw, Hl. repeat rewrite andb_true_iff in Hw. repeat rewrite andb_true_iff in Hl.
    destruct Hw as [Hw1 Hw2]. destruct Hl as [Hl1 [[Hl2 Hl3] [Hl4 Hl5]]].
    apply negb_true_iff in Hw1. cbn [esize] in *.
    assert (run n e s <> RFuel) as H1 by (apply Same; auto; lia).
    destruct (Peg.run G get prun n e s) as [s1|s1| |] eqn:Hx; try discriminate; auto.
    assert (pos s1 <= len) by (specialize (PB n e s Hs); rewrite Hx in PB; auto).
    pose proof (nul_sound _ _ _ _ Hx Hw1) as Hp.
    apply Later; auto; cbn [esize PegMode.wfm PegMode.later]; auto;
      rewrite ?Hl1, ?Hl2, ?Hl3, ?Hl4, ?Hl5; reflexivity.
  - cbn [PegMode.wfm PegMode.later] in Hw, Hl. repeat rewrite andb_true_iff in Hw. repeat rewrite andb_true_iff in Hl.
    destruct Hw as [Hw1 Hw2]. destruct Hl as [Hl1 [[Hl2 Hl3] [Hl4 Hl5]]].
    apply negb_true_iff in Hw1. cbn [esize] in *.
    assert (run n e s <> RFuel) as H1 by (apply Same; auto; lia).
    destruct (Peg.run G get prun n e s) as [s1|s1| |] eqn:Hx; try discriminate; auto.
    assert (pos s1 <= len) by (specialize (PB n e s Hs); rewrite Hx in PB; auto).
    pose proof (nul_sound _ _ _ _ Hx Hw1) as Hp.
    apply Later; auto; cbn [esize PegMode.wfm PegMode.later]; try lia;
      rewrite ?Hl1, ?Hl2, ?Hl3, ?Hl4, ?Hl5; reflexivity.
  - cbn [PegMode.wfm PegMode.later esize] in *.
    assert (run n e s <> RFuel) as H1 by (apply Same; auto; lia).
    destruct (Peg.run G get prun n e s) as [s1|s1| |] eqn:Hx; try discriminate; auto.
  - cbn [PegMode.wfm PegMode.later esize] in *.
    assert (run n e s <> RFuel) as H1 by (apply Same; auto; lia).
    destruct (Peg.run G get prun n e s) as [s1|s1| |] eqn:Hx; try discriminate; auto.
  - cbn [PegMode.wfm PegMode.later esize] in *.
    assert (run n e s <> RFuel) as H1 by (apply Same; auto; lia).
    destruct (Peg.run G get prun n e s) as [s1|s1| |] eqn:Hx; try discriminate; auto.
  - discriminate.
  - unfold run_pred. destruct (prun q _ _ _) as [[[[] u] l]|]; discriminate.
  - cbn [PegMode.wfm PegMode.later esize] in *.
    assert (run n e s <> RFuel) as H1 by (apply Same; auto; lia).
    destruct (Peg.run G get prun n e s) as [s1|s1| |] eqn:Hx; try discriminate; auto.
    unfold run_pred. destruct (prun q _ _ _) as [[[[] u] l]|]; discriminate.
Qed.

Definition rulem_fuel : nat := len * fpb (S m) + kmax * m + 1.

Lemma rulem_terminates : forall r n s, pos s <= len -> rulem_fuel <= n ->
  run n (PRule r) s <> RFuel.
Proof.
  intros r n s Hs Hn. apply runm_terminates with (z := S m) (k := kmax); auto.
  - cbn; lia.
  - cbn [PegMode.wfm]. apply Nat.ltb_lt. apply tab_rk.
  - cbn [esize]. unfold rulem_fuel in Hn.
    assert ((len - pos s) * fpb (S m) <= len * fpb (S m))
      by (apply Nat.mul_le_mono_r; lia).
    lia.
Qed.

End Sound.
