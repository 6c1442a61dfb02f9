(** * Big-step rules for the parsing machine: fuel-free evaluation *)
From Verif Require Import Peg PegWf PegProofs.

Section Eval.
Context {R A Q U : Type}.
Variable G : R -> pexp R A Q.
Variable get : nat -> option ascii.
Variable prun : Q -> nat -> option ascii -> U -> option (bool * U * list A).
Notation pst := (pst A U).
Notation res := (res A U).
Notation pexp := (pexp R A Q).
Notation run := (run G get prun).

Definition ev (e : pexp) (s : pst) (r : res) : Prop :=
  exists n, run n e s = r /\ r <> RFuel.

Lemma ev_run : forall e s r n, ev e s r -> run n e s <> RFuel -> run n e s = r.
Proof.
  intros e s r n [m [H1 H2]] Hn. rewrite <- H1. apply run_det; auto. congruence.
Qed.

Lemma ev_intro : forall n e s r, run n e s = r -> r <> RFuel -> ev e s r.
Proof. intros n e s r H1 H2. exists n. auto. Qed.

Lemma ev_det : forall e s r r', ev e s r -> ev e s r' -> r = r'.
Proof.
  intros e s r r' [n [H1 H2]] [m [H3 H4]]. rewrite <- H1, <- H3.
  apply run_det; congruence.
Qed.

Ltac up H k := eapply run_mono in H; [|auto; discriminate|apply (Nat.le_max_l _ k) || apply (Nat.le_max_r k _)].

Lemma ev_dot_ok : forall s c, get (pos s) = Some c -> ev PDot s (ROk (advance s)).
Proof. intros s c H. exists 1. cbn. rewrite H. split; [auto|discriminate]. Qed.
Lemma ev_dot_fail : forall s, get (pos s) = None -> ev PDot s (RFail s).
Proof. intros s H. exists 1. cbn. rewrite H. split; [auto|discriminate]. Qed.
Lemma ev_char_ok : forall s c, get (pos s) = Some c -> ev (PChar c) s (ROk (advance s)).
Proof.
  intros s c H. exists 1. cbn. rewrite H. unfold beq. rewrite Ascii.eqb_refl.
  split; [auto|discriminate].
Qed.
Lemma ev_char_fail : forall s c, get (pos s) <> Some c -> ev (PChar c) s (RFail s).
Proof.
  intros s c H. exists 1. cbn. destruct (get (pos s)) as [c'|]; [|split; [auto|discriminate]].
  destruct (beq c c') eqn:Hb; [|split; [auto|discriminate]].
  apply Ascii.eqb_eq in Hb. congruence.
Qed.
Lemma ev_class_ok : forall s cs c, get (pos s) = Some c -> in_class cs c = true ->
  ev (PClass cs) s (ROk (advance s)).
Proof. intros s cs c H Hc. exists 1. cbn. rewrite H, Hc. split; [auto|discriminate]. Qed.
Lemma ev_class_fail : forall s cs,
  (forall c, get (pos s) = Some c -> in_class cs c = false) -> ev (PClass cs) s (RFail s).
Proof.
  intros s cs H. exists 1. cbn. destruct (get (pos s)) as [c|]; [|split; [auto|discriminate]].
  rewrite (H c eq_refl). split; [auto|discriminate].
Qed.
Lemma ev_str_ok : forall s str p, match_str get str (pos s) (pos s) = inl p ->
  ev (PStr str) s (ROk (mkst p (thunks s) (user s))).
Proof. intros s str p H. exists 1. cbn. rewrite H. split; [auto|discriminate]. Qed.
Lemma ev_str_fail : forall s str p, match_str get str (pos s) (pos s) = inr p ->
  ev (PStr str) s (RFail (mkst p (thunks s) (user s))).
Proof. intros s str p H. exists 1. cbn. rewrite H. split; [auto|discriminate]. Qed.

Lemma ev_rule_ok : forall r s s', ev (G r) s (ROk s') -> ev (PRule r) s (ROk s').
Proof. intros r s s' [n [H _]]. exists (S n). cbn. rewrite H. split; [auto|discriminate]. Qed.
Lemma ev_rule_fail : forall r s s', ev (G r) s (RFail s') -> ev (PRule r) s (RFail (restore s s')).
Proof. intros r s s' [n [H _]]. exists (S n). cbn. rewrite H. split; [auto|discriminate]. Qed.

Lemma ev_seq_ok : forall e1 e2 s s1 r, ev e1 s (ROk s1) -> ev e2 s1 r -> ev (PSeq e1 e2) s r.
Proof.
  intros e1 e2 s s1 r [n [H _]] [m [H2 Hr]]. exists (S (Nat.max n m)). cbn.
  rewrite (run_mono _ _ _ _ _ _ _ H ltac:(discriminate) (Nat.max n m) ltac:(lia)).
  rewrite (run_mono _ _ _ _ _ _ _ H2 Hr (Nat.max n m) ltac:(lia)). auto.
Qed.
Lemma ev_seq_fail : forall e1 e2 s s1, ev e1 s (RFail s1) -> ev (PSeq e1 e2) s (RFail s1).
Proof. intros e1 e2 s s1 [n [H _]]. exists (S n). cbn. rewrite H. split; [auto|discriminate]. Qed.
Lemma ev_alt_ok : forall e1 e2 s s1, ev e1 s (ROk s1) -> ev (PAlt e1 e2) s (ROk s1).
Proof. intros e1 e2 s s1 [n [H _]]. exists (S n). cbn. rewrite H. split; [auto|discriminate]. Qed.
Lemma ev_alt_fail : forall e1 e2 s s1 r, ev e1 s (RFail s1) -> ev e2 (restore s s1) r ->
  ev (PAlt e1 e2) s r.
Proof.
  intros e1 e2 s s1 r [n [H _]] [m [H2 Hr]]. exists (S (Nat.max n m)). cbn.
  rewrite (run_mono _ _ _ _ _ _ _ H ltac:(discriminate) (Nat.max n m) ltac:(lia)).
  rewrite (run_mono _ _ _ _ _ _ _ H2 Hr (Nat.max n m) ltac:(lia)). auto.
Qed.
Lemma ev_star_stop : forall e s s1, ev e s (RFail s1) -> ev (PStar e) s (ROk (restore s s1)).
Proof. intros e s s1 [n [H _]]. exists (S n). cbn. rewrite H. split; [auto|discriminate]. Qed.
Lemma ev_star_step : forall e s s1 r, ev e s (ROk s1) -> ev (PStar e) s1 r -> ev (PStar e) s r.
Proof.
  intros e s s1 r [n [H _]] [m [H2 Hr]]. exists (S (Nat.max n m)). cbn.
  rewrite (run_mono _ _ _ _ _ _ _ H ltac:(discriminate) (Nat.max n m) ltac:(lia)).
  rewrite (run_mono _ _ _ _ _ _ _ H2 Hr (Nat.max n m) ltac:(lia)). auto.
Qed.
Lemma ev_query_ok : forall e s s1, ev e s (ROk s1) -> ev (PQuery e) s (ROk s1).
Proof. intros e s s1 [n [H _]]. exists (S n). cbn. rewrite H. split; [auto|discriminate]. Qed.
Lemma ev_query_skip : forall e s s1, ev e s (RFail s1) -> ev (PQuery e) s (ROk (restore s s1)).
Proof. intros e s s1 [n [H _]]. exists (S n). cbn. rewrite H. split; [auto|discriminate]. Qed.
Lemma ev_not_ok : forall e s s1, ev e s (RFail s1) -> ev (PNot e) s (ROk (restore s s1)).
Proof. intros e s s1 [n [H _]]. exists (S n). cbn. rewrite H. split; [auto|discriminate]. Qed.
Lemma ev_not_fail : forall e s s1, ev e s (ROk s1) -> ev (PNot e) s (RFail s1).
Proof. intros e s s1 [n [H _]]. exists (S n). cbn. rewrite H. split; [auto|discriminate]. Qed.
Lemma ev_and_ok : forall e s s1, ev e s (ROk s1) -> ev (PAnd e) s (ROk (restore s s1)).
Proof. intros e s s1 [n [H _]]. exists (S n). cbn. rewrite H. split; [auto|discriminate]. Qed.
Lemma ev_and_fail : forall e s s1, ev e s (RFail s1) -> ev (PAnd e) s (RFail s1).
Proof. intros e s s1 [n [H _]]. exists (S n). cbn. rewrite H. split; [auto|discriminate]. Qed.
Lemma ev_act : forall a s, ev (PAct a) s (ROk (mkst (pos s) ((a, pos s) :: thunks s) (user s))).
Proof. intros a s. exists 1. split; [reflexivity|discriminate]. Qed.
Lemma ev_pred : forall q s r, run_pred get prun q s = r -> r <> RFuel -> ev (PPred q) s r.
Proof. intros q s r H Hr. exists 1. auto. Qed.

End Eval.
