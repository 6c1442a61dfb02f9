(** * The thunks of a successful match are in order of position *)
From Coq Require Import List Arith Lia Sorted.
From Verif Require Import Peg PegProofs.
Import ListNotations.

Section Thunks.
Context {R A Q U : Type}.
Variable G : R -> pexp R A Q.
Variable get : nat -> option Ascii.ascii.
Variable prun : Q -> nat -> option Ascii.ascii -> U -> option (bool * U * list A).
Notation run := (run G get prun).

(** newest first *)
Definition tsorted (s : pst A U) : Prop :=
  StronglySorted (fun x y => snd y <= snd x) (thunks s) /\ Forall (fun x => snd x <= pos s) (thunks s).

Lemma tsorted_up : forall s s' : pst A U, thunks s' = thunks s -> pos s <= pos s' -> tsorted s -> tsorted s'.
Proof.
  intros s s' H1 H2 [H3 H4]. unfold tsorted. rewrite H1. split; [auto|].
  eapply Forall_impl; [|exact H4]. cbn. intros; lia.
Qed.

Lemma tsorted_add : forall l (s : pst A U) u, tsorted s -> tsorted (mkst (pos s) (add_thunks l s) u).
Proof.
  intros l s u. unfold tsorted, add_thunks. cbn [thunks pos]. generalize (thunks s).
  induction l as [|a l IH]; intros acc [H1 H2]; cbn [fold_left]; [auto|].
  apply IH. split.
  - constructor; [auto|exact H2].
  - constructor; [cbn; lia|exact H2].
Qed.

Lemma run_tsorted : forall n e s s', tsorted s -> run n e s = ROk s' -> tsorted s'.
Proof.
  induction n as [|n IH]; intros e s s' Hs Hx; [discriminate|].
  pose proof (run_ok_pos _ _ _ _ _ _ _ Hx) as Hle.
  destruct e; cbn [Peg.run] in Hx.
  - destruct (get (pos s)); [|discriminate]. injection Hx as <-. eapply tsorted_up; [| |exact Hs]; auto.
  - destruct (get (pos s)); [destruct (beq c a)|]; try discriminate. injection Hx as <-. eapply tsorted_up; [| |exact Hs]; auto.
  - destruct (match_str get s0 (pos s) (pos s)); [|discriminate]. injection Hx as <-. eapply tsorted_up; [| |exact Hs]; auto.
  - destruct (get (pos s)); [destruct (in_class cs a)|]; try discriminate. injection Hx as <-. eapply tsorted_up; [| |exact Hs]; auto.
  - destruct (run n (G r) s) as [s1|s1| |] eqn:H1; try discriminate. injection Hx as <-. exact (IH _ _ _ Hs H1).
  - destruct (run n e1 s) as [s1|s1| |] eqn:H1; try discriminate. exact (IH _ _ _ (IH _ _ _ Hs H1) Hx).
  - destruct (run n e1 s) as [s1|s1| |] eqn:H1; try discriminate.
    + injection Hx as <-. exact (IH _ _ _ Hs H1).
    + assert (tsorted (restore s s1)) as Hr by exact Hs. exact (IH _ _ _ Hr Hx).
  - destruct (run n e s) as [s1|s1| |] eqn:H1; try discriminate.
    + exact (IH _ _ _ (IH _ _ _ Hs H1) Hx).
    + injection Hx as <-. exact Hs.
  - destruct (run n e s) as [s1|s1| |] eqn:H1; try discriminate. exact (IH _ _ _ (IH _ _ _ Hs H1) Hx).
  - destruct (run n e s) as [s1|s1| |] eqn:H1; try discriminate.
    + injection Hx as <-. exact (IH _ _ _ Hs H1).
    + injection Hx as <-. exact Hs.
  - destruct (run n e s) as [s1|s1| |] eqn:H1; try discriminate. injection Hx as <-. exact Hs.
  - destruct (run n e s) as [s1|s1| |] eqn:H1; try discriminate. injection Hx as <-. exact Hs.
  - injection Hx as <-. exact (tsorted_add [a] s (user s) Hs).
  - unfold run_pred in Hx. destruct (prun q (pos s) (get (pos s)) (user s)) as [[[[] u] l]|]; try discriminate.
    injection Hx as <-. apply tsorted_add. exact Hs.
  - destruct (run n e s) as [s1|s1| |] eqn:H1; try discriminate.
    + injection Hx as <-. exact (IH _ _ _ Hs H1).
    + destruct (run_pred get prun q s1); discriminate.
Qed.

Lemma ssorted_rev : forall l : list (A * nat), StronglySorted (fun x y => snd y <= snd x) l ->
  StronglySorted le (map snd (rev l)).
Proof.
  induction l as [|x l IH]; intros H; cbn; [constructor|]. inversion H; subst.
  rewrite map_app. cbn.
  assert (K : forall (m : list nat) z, StronglySorted le m -> Forall (fun y => y <= z) m -> StronglySorted le (m ++ [z])).
  { induction m as [|w m IHm]; intros z S1 F1; cbn; [repeat constructor|].
    inversion S1; subst. inversion F1; subst. constructor; [auto|]. apply Forall_app. split; [auto|repeat constructor; auto]. }
  apply K; [auto|]. apply Forall_map. apply Forall_rev. exact H3.
Qed.
End Thunks.
