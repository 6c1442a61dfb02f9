(** * Basic facts about the parsing machine *)
From Verif Require Import Peg PegWf.

Section Facts.
Context {R A Q U : Type}.
Variable G : R -> pexp R A Q.
Variable get : nat -> option ascii.
Variable prun : Q -> nat -> option ascii -> U -> option (bool * U * list A).
Notation pst := (pst A U).
Notation res := (res A U).
Notation pexp := (pexp R A Q).
Notation run := (run G get prun).

(** More fuel never changes an answer. *)
Lemma run_mono : forall n e s r, run n e s = r -> r <> RFuel ->
  forall m, n <= m -> run m e s = r.
Proof.
  induction n as [|n IH]; intros e s r Hr Hnf m Hm; [subst; contradiction|].
  destruct m as [|m]; [lia|]. assert (n <= m) as Hnm by lia.
  assert (IH' : forall e s r, run n e s = r -> r <> RFuel -> run m e s = r)
    by (intros; eapply IH; eauto).
  destruct e; cbn [Peg.run] in *; try exact Hr;
  repeat match type of Hr with
  | context [match Peg.run G get prun n ?e ?s with _ => _ end] =>
      let Hx := fresh "Hx" in
      destruct (Peg.run G get prun n e s) eqn:Hx;
      try (apply IH' in Hx; [rewrite Hx | discriminate]); cbn in Hr
  end; auto; try congruence; eapply IH'; eauto.
Qed.

Lemma run_det : forall n m e s, run n e s <> RFuel -> run m e s <> RFuel ->
  run n e s = run m e s.
Proof.
  intros n m e s Hn Hm. destruct (Nat.le_ge_cases n m).
  - symmetry. eapply run_mono; eauto.
  - eapply run_mono; eauto.
Qed.

Lemma match_str_inl : forall str p0 p q, match_str get str p0 p = inl q ->
  q = p + List.length str /\
  (forall i, i < List.length str -> get (p + i) = nth_error str i).
Proof.
  induction str as [|c str IH]; cbn [match_str List.length]; intros p0 p q H.
  - injection H as <-. split; [lia|intros i Hi; lia].
  - destruct (get p) as [c'|] eqn:Hg; [|discriminate].
    destruct (beq c c') eqn:Hb; [|discriminate].
    apply Ascii.eqb_eq in Hb. subst c'.
    apply IH in H. destruct H as [-> H]. split; [lia|].
    intros [|i] Hi; cbn; [rewrite Nat.add_0_r; auto|].
    rewrite <- H by lia. f_equal. lia.
Qed.

Lemma match_str_inr : forall str p0 p q, p0 <= p -> match_str get str p0 p = inr q ->
  p0 <= q /\ (q <> p0 -> get q = None /\
     forall i, p <= i -> i < q -> get i <> None).
Proof.
  induction str as [|c str IH]; cbn [match_str]; intros p0 p q Hp H; [discriminate|].
  destruct (get p) as [c'|] eqn:Hg.
  - destruct (beq c c') eqn:Hb.
    + apply IH in H; [|lia]. destruct H as [H1 H2]. split; [auto|].
      intros Hq. destruct (H2 Hq) as [H3 H4]. split; [auto|].
      intros i Hi1 Hi2. destruct (Nat.eq_dec i p) as [->|]; [congruence|].
      apply H4; lia.
    + injection H as <-. split; [lia|contradiction].
  - injection H as <-. split; [lia|]. intros _. split; [auto|intros i ? ?; lia].
Qed.

Definition res_pos (r : res) : option nat :=
  match r with ROk s | RFail s => Some (pos s) | _ => None end.

(** Positions never move left of where an expression was entered. *)
Lemma run_pos_le : forall n e s,
  match run n e s with
  | ROk s' | RFail s' => pos s <= pos s'
  | _ => True
  end.
Proof.
  induction n as [|n IH]; intros e s; [cbn; auto|].
  destruct e; cbn [Peg.run].
  - destruct (get (pos s)); cbn; lia.
  - destruct (get (pos s)); [destruct (beq c a)|]; cbn; lia.
  - destruct (match_str get s0 (pos s) (pos s)) eqn:Hm; cbn.
    + apply match_str_inl in Hm. lia.
    + apply match_str_inr in Hm; lia.
  - destruct (get (pos s)); [destruct (in_class cs a)|]; cbn; lia.
  - specialize (IH (G r) s). destruct (Peg.run G get prun n (G r) s); cbn; auto.
  - pose proof (IH e1 s) as H1. destruct (Peg.run G get prun n e1 s) as [s1| | |]; auto.
    specialize (IH e2 s1). destruct (Peg.run G get prun n e2 s1); auto; lia.
  - pose proof (IH e1 s) as H1. destruct (Peg.run G get prun n e1 s) as [s1|s1| |]; auto.
    specialize (IH e2 (restore s s1)). destruct (Peg.run G get prun n e2 (restore s s1)); auto.
  - pose proof (IH e s) as H1. destruct (Peg.run G get prun n e s) as [s1|s1| |]; cbn; auto.
    specialize (IH (PStar e) s1). destruct (Peg.run G get prun n (PStar e) s1); auto; lia.
  - pose proof (IH e s) as H1. destruct (Peg.run G get prun n e s) as [s1|s1| |]; cbn; auto.
    specialize (IH (PStar e) s1). destruct (Peg.run G get prun n (PStar e) s1); auto; lia.
  - pose proof (IH e s) as H1. destruct (Peg.run G get prun n e s) as [s1|s1| |]; cbn; auto.
  - pose proof (IH e s) as H1. destruct (Peg.run G get prun n e s) as [s1|s1| |]; cbn; auto.
  - pose proof (IH e s) as H1. destruct (Peg.run G get prun n e s) as [s1|s1| |]; cbn; auto.
  - cbn; lia.
  - unfold run_pred. destruct (prun q _ _ _) as [[[[] u] l]|]; cbn; auto.
  - pose proof (IH e s) as H1. destruct (Peg.run G get prun n e s) as [s1|s1| |]; cbn; auto.
    unfold run_pred. destruct (prun q _ _ _) as [[[[] u] l]|]; cbn; auto.
Qed.

Lemma run_ok_pos : forall n e s s', run n e s = ROk s' -> pos s <= pos s'.
Proof. intros n e s s' H. pose proof (run_pos_le n e s) as H1. rewrite H in H1. auto. Qed.
Lemma run_fail_pos : forall n e s s', run n e s = RFail s' -> pos s <= pos s'.
Proof. intros n e s s' H. pose proof (run_pos_le n e s) as H1. rewrite H in H1. auto. Qed.

(** Positions stay within the input. *)
Section Bound.
Variable len : nat.
Hypothesis get_len : forall p, get p <> None <-> p < len.

Lemma run_pos_bound : forall n e s, pos s <= len ->
  match run n e s with
  | ROk s' | RFail s' => pos s' <= len
  | _ => True
  end.
Proof.
  induction n as [|n IH]; intros e s Hs; [cbn; auto|].
  assert (IHr : forall e s, pos s <= len -> forall s', (run n e s = ROk s' \/ run n e s = RFail s') -> pos s' <= len).
  { intros e0 s0 H0 s' [H|H]; specialize (IH e0 s0 H0); rewrite H in IH; auto. }
  assert (Hadv : forall c, get (pos s) = Some c -> S (pos s) <= len).
  { intros c Hc. apply get_len. congruence. }
  destruct e; cbn [Peg.run].
  - destruct (get (pos s)) eqn:Hg; cbn; eauto.
  - destruct (get (pos s)) eqn:Hg; [destruct (beq c a)|]; cbn; eauto.
  - destruct (match_str get s0 (pos s) (pos s)) eqn:Hm; cbn.
    + apply match_str_inl in Hm. destruct Hm as [-> Hm].
      destruct (List.length s0) eqn:Hl; [lia|].
      assert (get (pos s + n0) <> None).
      { rewrite Hm by lia. apply nth_error_Some. lia. }
      apply get_len in H. lia.
    + apply match_str_inr in Hm; [|lia]. destruct Hm as [H1 H2].
      destruct (Nat.eq_dec n0 (pos s)); [lia|]. destruct (H2 n1) as [H3 H4].
      destruct n0; [lia|]. assert (get n0 <> None) by (apply H4; lia).
      apply get_len in H. lia.
  - destruct (get (pos s)) eqn:Hg; [destruct (in_class cs a)|]; cbn; eauto.
  - destruct (Peg.run G get prun n (G r) s) eqn:Hx; cbn; eauto.
  - destruct (Peg.run G get prun n e1 s) as [s1|s1| |] eqn:Hx; cbn; eauto.
    apply IH; eauto.
  - destruct (Peg.run G get prun n e1 s) as [s1|s1| |] eqn:Hx; cbn; eauto.
    apply IH; cbn; auto.
  - destruct (Peg.run G get prun n e s) as [s1|s1| |] eqn:Hx; cbn; eauto.
    apply IH; eauto.
  - destruct (Peg.run G get prun n e s) as [s1|s1| |] eqn:Hx; cbn; eauto.
    apply IH; eauto.
  - destruct (Peg.run G get prun n e s) as [s1|s1| |] eqn:Hx; cbn; eauto.
  - destruct (Peg.run G get prun n e s) as [s1|s1| |] eqn:Hx; cbn; eauto.
  - destruct (Peg.run G get prun n e s) as [s1|s1| |] eqn:Hx; cbn; eauto.
  - cbn; auto.
  - unfold run_pred. destruct (prun q _ _ _) as [[[[] u] l]|]; cbn; auto.
  - destruct (Peg.run G get prun n e s) as [s1|s1| |] eqn:Hx; cbn; eauto.
    unfold run_pred. destruct (prun q _ _ _) as [[[[] u] l]|]; cbn; eauto.
Qed.
End Bound.

(** Soundness of [nullable]. *)
Section Null.
Variable nl : R -> bool.
Hypothesis nl_ok : forall r, nullable nl (G r) = true -> nl r = true.

Lemma nullable_sound : forall n e s s',
  run n e s = ROk s' -> nullable nl e = false -> pos s < pos s'.
Proof.
  induction n as [|n IH]; intros e s s' Hr Hn; [discriminate|].
  destruct e; cbn [Peg.run nullable] in *; try discriminate.
  - destruct (get (pos s)); [injection Hr as <-; cbn; lia|discriminate].
  - destruct (get (pos s)); [destruct (beq c a); [injection Hr as <-; cbn; lia|]|]; discriminate.
  - destruct s0 as [|c0 s0]; [discriminate|].
    destruct (match_str get (c0 :: s0) (pos s) (pos s)) eqn:Hm; [|discriminate].
    injection Hr as <-. apply match_str_inl in Hm. cbn in *. lia.
  - destruct (get (pos s)); [destruct (in_class cs a); [injection Hr as <-; cbn; lia|]|]; discriminate.
  - destruct (Peg.run G get prun n (G r) s) eqn:Hx; try discriminate.
    injection Hr as <-. eapply IH; eauto.
    destruct (nullable nl (G r)) eqn:Hg; auto. apply nl_ok in Hg. congruence.
  - destruct (Peg.run G get prun n e1 s) as [s1| | |] eqn:Hx; try discriminate.
    apply andb_false_iff in Hn. destruct Hn as [Hn|Hn].
    + pose proof (IH _ _ _ Hx Hn). apply run_ok_pos in Hr. lia.
    + pose proof (IH _ _ _ Hr Hn). apply run_ok_pos in Hx. lia.
  - apply orb_false_iff in Hn. destruct Hn as [Hn1 Hn2].
    destruct (Peg.run G get prun n e1 s) as [s1|s1| |] eqn:Hx; try discriminate.
    + injection Hr as <-. eauto.
    + apply IH in Hr; auto.
  - destruct (Peg.run G get prun n e s) as [s1|s1| |] eqn:Hx; try discriminate.
    apply IH in Hx; auto. apply run_ok_pos in Hr. lia.
  - destruct (Peg.run G get prun n e s) as [s1|s1| |] eqn:Hx; try discriminate.
    + injection Hr as <-. eauto.
    + unfold run_pred in Hr. destruct (prun q _ _ _) as [[[[] u] l]|]; discriminate.
Qed.

(** Termination of well-formed grammars, with an explicit fuel bound. *)
Variables (rk : R -> nat) (kmax m : nat).
Hypothesis wf_ok : forall r, wf nl rk kmax (rk r) (G r) = true.
Hypothesis rk_ok : forall r, rk r < kmax.
Hypothesis sz_ok : forall r, esize (G r) <= m.

Lemma wf_weaken : forall (e : pexp) k k', k <= k' -> wf nl rk kmax k e = true -> k' <= kmax ->
  wf nl rk kmax k' e = true.
Proof.
  induction e; cbn [wf]; intros k k' Hk H Hm; auto;
  repeat rewrite ?andb_true_iff in *.
  - apply Nat.ltb_lt in H. apply Nat.ltb_lt. lia.
  - destruct H as [H1 H2]. split; [eauto|]. destruct (nullable nl e1); eauto.
  - destruct H as [H1 H2]. split; eauto.
  - destruct H as [[H1 H2] H3]. repeat split; eauto.
  - destruct H as [[H1 H2] H3]. repeat split; eauto.
  - eauto.
  - eauto.
  - eauto.
  - eauto.
Qed.

Variable len : nat.
Hypothesis get_len : forall p, get p <> None <-> p < len.

Lemma esize_pos : forall e : pexp, 1 <= esize e.
Proof. destruct e; cbn; lia. Qed.

(** fuel per remaining input byte, for expressions of size at most [z] *)
Definition fuel_per_byte (z : nat) : nat := kmax * m + z + m + 1.

Lemma run_terminates : forall z n (e : pexp) (s : pst) k,
  esize e <= z -> m <= z -> k <= kmax ->
  pos s <= len -> wf nl rk kmax k e = true ->
  (len - pos s) * fuel_per_byte z + k * m + esize e <= n ->
  run n e s <> RFuel.
Proof.
  intros z. induction n as [|n IH]; intros e s k Hz Hmz Hk Hs Hw Hn.
  { pose proof (esize_pos e).
    generalize dependent ((len - pos s) * fuel_per_byte z). intros; lia. }
  assert (Hk' : k * m <= kmax * m) by (apply Nat.mul_le_mono_r; auto).
  (* any expression at a strictly later position *)
  assert (Later : forall e' s', esize e' <= z -> pos s < pos s' -> pos s' <= len ->
            wf nl rk kmax kmax e' = true -> run n e' s' <> RFuel).
  { intros e' s' He' Hp' Hl' Hw'. apply IH with (k := kmax); auto.
    assert (Hle : (len - pos s') * fuel_per_byte z + fuel_per_byte z <= (len - pos s) * fuel_per_byte z).
    { replace ((len - pos s') * fuel_per_byte z + fuel_per_byte z)
        with ((S (len - pos s')) * fuel_per_byte z) by (cbn; lia).
      apply Nat.mul_le_mono_r. lia. }
    pose proof (esize_pos e).
    generalize dependent ((len - pos s) * fuel_per_byte z).
    generalize dependent ((len - pos s') * fuel_per_byte z).
    unfold fuel_per_byte. intros; lia. }
  (* any smaller expression at the same position *)
  assert (Same : forall e' s', esize e' <= z -> esize e' < esize e -> pos s' = pos s ->
            wf nl rk kmax k e' = true -> run n e' s' <> RFuel).
  { intros e' s' He' Hlt Hp' Hw'. apply IH with (k := k); auto; rewrite Hp'; [auto|].
    generalize dependent ((len - pos s) * fuel_per_byte z). intros; lia. }
  pose proof (run_pos_bound len get_len) as PB.
  destruct e; cbn [Peg.run].
  - destruct (get (pos s)); discriminate.
  - destruct (get (pos s)); [destruct (beq c a)|]; discriminate.
  - destruct (match_str get s0 (pos s) (pos s)); discriminate.
  - destruct (get (pos s)); [destruct (in_class cs a)|]; discriminate.
  - cbn [wf] in Hw. apply Nat.ltb_lt in Hw.
    assert (run n (G r) s <> RFuel).
    { apply IH with (k := rk r); auto; try lia.
      - specialize (sz_ok r). lia.
      - cbn [esize] in Hn. specialize (sz_ok r).
        assert (rk r * m + m <= k * m).
        { replace (rk r * m + m) with (S (rk r) * m) by (cbn; lia).
          apply Nat.mul_le_mono_r. lia. }
        lia. }
    destruct (Peg.run G get prun n (G r) s); try discriminate; auto.
  - cbn [wf] in Hw. apply andb_true_iff in Hw. destruct Hw as [Hw1 Hw2].
    cbn [esize] in *.
    assert (run n e1 s <> RFuel) as H1 by (apply Same; auto; lia).
    destruct (Peg.run G get prun n e1 s) as [s1| | |] eqn:Hx; try discriminate; auto.
    assert (pos s1 <= len) by (specialize (PB n e1 s Hs); rewrite Hx in PB; auto).
    pose proof (run_ok_pos _ _ _ _ Hx).
    destruct (Nat.eq_dec (pos s1) (pos s)) as [Heq|Hne].
    + destruct (nullable nl e1) eqn:Hnl.
      * apply Same; auto; lia.
      * pose proof (nullable_sound _ _ _ _ Hx Hnl). lia.
    + apply Later; auto; try lia.
      destruct (nullable nl e1); auto. eapply wf_weaken; eauto.
  - cbn [wf] in Hw. apply andb_true_iff in Hw. destruct Hw as [Hw1 Hw2].
    cbn [esize] in *.
    assert (run n e1 s <> RFuel) as H1 by (apply Same; auto; lia).
    destruct (Peg.run G get prun n e1 s) as [s1|s1| |] eqn:Hx; try discriminate; auto.
    apply Same; auto; lia.
  - cbn [wf] in Hw. repeat rewrite andb_true_iff in Hw. destruct Hw as [[Hw1 Hw2] Hw3].
    apply negb_true_iff in Hw1. cbn [esize] in *.
    assert (run n e s <> RFuel) as H1 by (apply Same; auto; lia).
    destruct (Peg.run G get prun n e s) as [s1|s1| |] eqn:Hx; try discriminate; auto.
    assert (pos s1 <= len) by (specialize (PB n e s Hs); rewrite Hx in PB; auto).
    pose proof (nullable_sound _ _ _ _ Hx Hw1).
    apply Later; auto; cbn [esize wf]; auto. rewrite Hw1, Hw3. reflexivity.
  - cbn [wf] in Hw. repeat rewrite andb_true_iff in Hw. destruct Hw as [[Hw1 Hw2] Hw3].
    apply negb_true_iff in Hw1. cbn [esize] in *.
    assert (run n e s <> RFuel) as H1 by (apply Same; auto; lia).
    destruct (Peg.run G get prun n e s) as [s1|s1| |] eqn:Hx; try discriminate; auto.
    assert (pos s1 <= len) by (specialize (PB n e s Hs); rewrite Hx in PB; auto).
    pose proof (nullable_sound _ _ _ _ Hx Hw1).
    apply Later; auto; cbn [esize wf]; [lia|]. rewrite Hw1, Hw3. reflexivity.
  - cbn [wf esize] in *.
    assert (run n e s <> RFuel) as H1 by (apply Same; auto; lia).
    destruct (Peg.run G get prun n e s) as [s1|s1| |] eqn:Hx; try discriminate; auto.
  - cbn [wf esize] in *.
    assert (run n e s <> RFuel) as H1 by (apply Same; auto; lia).
    destruct (Peg.run G get prun n e s) as [s1|s1| |] eqn:Hx; try discriminate; auto.
  - cbn [wf esize] in *.
    assert (run n e s <> RFuel) as H1 by (apply Same; auto; lia).
    destruct (Peg.run G get prun n e s) as [s1|s1| |] eqn:Hx; try discriminate; auto.
  - discriminate.
  - unfold run_pred. destruct (prun q _ _ _) as [[[[] u] l]|]; discriminate.
  - cbn [wf esize] in *.
    assert (run n e s <> RFuel) as H1 by (apply Same; auto; lia).
    destruct (Peg.run G get prun n e s) as [s1|s1| |] eqn:Hx; try discriminate; auto.
    unfold run_pred. destruct (prun q _ _ _) as [[[[] u] l]|]; discriminate.
Qed.

Definition rule_fuel : nat := len * fuel_per_byte (S m) + kmax * m + 1.

Lemma rule_terminates : forall r n s, pos s <= len -> rule_fuel <= n ->
  run n (PRule r) s <> RFuel.
Proof.
  intros r n s Hs Hn. apply run_terminates with (z := S m) (k := kmax); auto.
  - cbn; lia.
  - cbn [wf]. apply Nat.ltb_lt. auto.
  - cbn [esize]. unfold rule_fuel in Hn.
    assert ((len - pos s) * fuel_per_byte (S m) <= len * fuel_per_byte (S m))
      by (apply Nat.mul_le_mono_r; lia).
    lia.
Qed.
End Null.

End Facts.
