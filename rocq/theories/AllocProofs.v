(** * Proofs about the memory of a parse *)
From Coq Require Import List Bool Arith ZArith Lia Permutation.
From Verif Require Import AnnotModel OwnModel.
From Verif Require Import Peg QuickModel ErrModel CypherSyntax CypherGrammar CypherMatch
  AstTypes AstModel CypherBuild CypherExec CypherParse AllocModel AllocSpec.
Import ListNotations.

Opaque parse_one cfuel.

(** ** Lists of blocks *)

Lemma live_in : forall o a, live o a = true <-> In a (o_live o).
Proof.
  intros o a. unfold live. rewrite existsb_exists. split.
  - intros (x & H & E). apply Nat.eqb_eq in E. subst. exact H.
  - intros H. exists a. rewrite Nat.eqb_refl. auto.
Qed.

Lemma remove_perm : forall (l r : list addr) a, NoDup l -> Permutation l (a :: r) -> Permutation (remove Nat.eq_dec a l) r.
Proof.
  intros l r a N P.
  assert (N2 : NoDup (a :: r)) by (eapply Permutation_NoDup; eauto). inversion N2; subst.
  apply NoDup_Permutation; auto.
  - clear - N. induction l; cbn; auto. inversion N; subst. destruct (Nat.eq_dec a a0); auto.
    constructor; auto. intros H. apply in_remove in H. tauto.
  - intros x. split.
    + intros H. apply in_remove in H as [H D]. apply (Permutation_in _ P) in H as [H|H]; auto; congruence.
    + intros H. apply in_in_remove; [intros ->; auto|]. apply (Permutation_in _ (Permutation_sym P)). right. exact H.
Qed.

Lemma remove_nodup : forall (l : list addr) a, NoDup l -> NoDup (remove Nat.eq_dec a l).
Proof.
  induction l; cbn; intros b N; auto. inversion N; subst. destruct (Nat.eq_dec b a); auto.
  constructor; auto. intros H. apply in_remove in H. tauto.
Qed.

(** what is allocated is exactly [L] *)
Definition holds (o : own) (L : list addr) : Prop := NoDup (o_live o) /\ Permutation (o_live o) L.

Definition same_maps (o o' : own) : Prop := o_segs o' = o_segs o /\ o_ress o' = o_ress o.

Lemma free_all_holds : forall l o rest, holds o (l ++ rest) ->
  exists o', free_all l o = Some o' /\ holds o' rest /\ same_maps o o'.
Proof.
  induction l as [|a l IH]; intros o rest [N P]; cbn.
  - exists o. repeat split; auto.
  - unfold free. assert (L : live o a = true).
    { apply live_in. apply (Permutation_in _ (Permutation_sym P)). left. reflexivity. }
    rewrite L. destruct (IH (mkown (remove Nat.eq_dec a (o_live o)) (o_segs o) (o_ress o)) rest) as (o' & E & H & S).
    { split; cbn; [apply remove_nodup; auto|]. apply remove_perm; auto. }
    exists o'. auto.
Qed.

Lemma holds_perm : forall o L L', holds o L -> Permutation L L' -> holds o L'.
Proof. intros o L L' [N P] Q. split; auto. eapply Permutation_trans; eauto. Qed.

Lemma holds_alloc : forall o L a, holds o L -> ~ In a L -> holds (alloc a o) (a :: L).
Proof.
  intros o L a [N P] H. split; cbn.
  - constructor; auto. intros I. apply H. apply (Permutation_in _ P). exact I.
  - apply perm_skip. exact P.
Qed.

Lemma free_all_dead : forall l o o' a, free_all l o = Some o' -> In a l \/ live o a = false -> live o' a = false.
Proof.
  induction l as [|b l IH]; cbn; intros o o' a E H.
  - injection E as <-. tauto.
  - unfold free in E. destruct (live o b) eqn:L; cbn in E; [|discriminate].
    apply IH with (1 := E).
    assert (R : b = a \/ live o a = false -> live (mkown (remove Nat.eq_dec b (o_live o)) (o_segs o) (o_ress o)) a = false).
    { intros [->|D].
      - apply not_true_is_false. intros X. apply live_in in X. cbn in X. apply in_remove in X. tauto.
      - apply not_true_is_false. intros X. apply live_in in X. cbn in X. apply in_remove in X as [X _].
        apply live_in in X. congruence. }
    destruct H as [[->|H]|H]; auto.
Qed.

(** permutations of concatenations: [perm] solves what differs by moving parts *)
Lemma perm_count : forall (l l' : list addr), (forall a, count_occ Nat.eq_dec l a = count_occ Nat.eq_dec l' a) -> Permutation l l'.
Proof. intros l l' H. apply (Permutation_count_occ Nat.eq_dec). exact H. Qed.

Lemma mblock_frees_eq : forall a q k ts, mblock_frees (mkmb a q k ts) = flat_map tree_frees ts ++ blk q ++ blk k ++ [a].
Proof. reflexivity. Qed.

Ltac perm :=
  apply perm_count; let x := fresh "x" in intros x;
  repeat (rewrite ?mblock_frees_eq, ?count_occ_app, ?flat_map_app, ?app_nil_r in *; cbn [app flat_map blk count_occ k_self k_seq k_kids k_trees tree_frees] in * );
  repeat match goal with |- context [Nat.eq_dec ?u ?v] => destruct (Nat.eq_dec u v) end; lia.

Section Sched.
Variable sc : sched.

(** an allocation outside parse_each itself, segment.c and result.c fails *)
Definition hit : Prop := exists st n, st <> SOuter /\ fails sc st n = true.

Definition logged (m : mem) : Prop := forall st n, In (st, n) (m_log m) -> st = SOuter \/ fails sc st n = false.

Definition good (m : mem) (L : list addr) : Prop :=
  holds (m_own m) L /\ (forall a, In a L -> a < m_next m) /\ logged m.

Definition selfs (m : mem) : list addr :=
  map k_self (m_stack m) ++ match m_prev m with Some b => [k_self b] | None => [] end.

(** the block [top] is on the stack, or closed, or freed *)
Definition T (top : addr) (m : mem) : Prop :=
  top < m_next m /\ (live (m_own m) top = true -> In top (selfs m)).

Definition spec {X} (m : mem) (r : mres X) (Q : X -> mem -> Prop) : Prop :=
  match r with
  | MOk x m' => Q x m' /\ forall top, T top m -> T top m'
  | MAbort m' => hit /\ forall top, T top m -> T top m'
  | MUndef => hit
  | MStop => False
  end.

Lemma spec_bind : forall X Y m (r : mres X) (f : X -> mem -> mres Y) Q Q',
  spec m r Q -> (forall x m', Q x m' -> (forall top, T top m -> T top m') -> spec m' (f x m') Q') -> spec m (mbind r f) Q'.
Proof.
  intros X Y m r f Q Q' H F. destruct r as [x m1|m1| |]; cbn in *; auto.
  destruct H as [H H2]. specialize (F x m1 H H2). destruct (f x m1) as [y m2|m2| |]; cbn in *; intuition auto.
Qed.

Lemma spec_ret : forall X m (x : X) (Q : X -> mem -> Prop), Q x m -> spec m (MOk x m) Q.
Proof. intros. cbn. auto. Qed.

Lemma spec_weak : forall X m (r : mres X) (Q Q' : X -> mem -> Prop), spec m r Q -> (forall x m', Q x m' -> Q' x m') -> spec m r Q'.
Proof. intros X m r Q Q' H I. destruct r; cbn in *; intuition auto. Qed.

(** only the memory changed *)
Definition kept (m m' : mem) : Prop :=
  m_store m' = m_store m /\ m_errs m' = m_errs m /\ m_stack m' = m_stack m /\ m_prev m' = m_prev m /\ same_maps (m_own m) (m_own m').

Lemma kept_refl : forall m, kept m m.
Proof. intros. repeat split. Qed.

Lemma kept_trans : forall m1 m2 m3, kept m1 m2 -> kept m2 m3 -> kept m1 m3.
Proof. unfold kept, same_maps. intros m1 m2 m3 H1 H2. intuition congruence. Qed.

Lemma good_perm : forall m L L', good m L -> Permutation L L' -> good m L'.
Proof.
  intros m L L' (H & B & G) P. split; [|split]; auto.
  - eapply holds_perm; eauto.
  - intros a I. apply B. apply (Permutation_in _ (Permutation_sym P)). exact I.
Qed.

Lemma good_own : forall m m' L, good m L -> m_own m' = m_own m -> m_next m <= m_next m' -> m_log m' = m_log m -> good m' L.
Proof.
  intros m m' L (H & B & G) E N Q. split; [|split].
  - rewrite E. exact H.
  - intros a I. apply B in I. lia.
  - unfold logged. rewrite Q. exact G.
Qed.

Lemma T_own : forall m m' top, T top m -> (live (m_own m') top = true -> live (m_own m) top = true) -> m_next m <= m_next m' ->
  m_stack m' = m_stack m -> m_prev m' = m_prev m -> T top m'.
Proof.
  intros m m' top [H1 H2] L N S P. split; [lia|]. intros H. unfold selfs. rewrite S, P. apply H2. auto.
Qed.

Ltac kp := unfold kept, same_maps in *; cbn in *; intuition congruence.

Lemma take_ok : forall st m X, good m X -> st <> SOuter ->
  match take sc st m with
  | (Some a, m') => good m' (a :: X) /\ kept m m' /\ m_next m' = S (m_next m) /\ a = m_next m /\ forall top, T top m -> T top m'
  | (None, m') => hit /\ kept m m' /\ forall top, T top m -> T top m'
  end.
Proof.
  intros st m X (H & B & G) NS. unfold take, draw. destruct (fails sc st (m_next m)) eqn:F.
  - split; [exists st, (m_next m); auto|]. split; [kp|].
    intros top HT. apply (T_own m); cbn; auto.
  - cbn [fst snd]. split; [|split; [kp|split; [reflexivity|split; [reflexivity|]]]].
    + split; [|split]; cbn.
      * apply holds_alloc; auto. intros I. apply B in I. lia.
      * intros a [<-|I]; [|apply B in I]; lia.
      * intros s n [E|I]; [injection E as <- <-; auto|apply G; auto].
    + intros top HT. apply (T_own m); cbn; auto. unfold live. cbn. intros L. destruct HT as [HT _].
      destruct (Nat.eqb_spec top (m_next m)); [lia|exact L].
Qed.

Lemma mfree_ok : forall l m X, good m (l ++ X) ->
  exists m', mfree l m = MOk tt m' /\ good m' X /\ kept m m' /\ m_next m' = m_next m /\
    (forall a, In a l -> live (m_own m') a = false) /\ forall top, T top m -> T top m'.
Proof.
  intros l m X (H & B & G). destruct (free_all_holds l (m_own m) X H) as (o & E & H' & S).
  unfold mfree. rewrite E. eexists. split; [reflexivity|].
  split; [|split; [kp|split; [reflexivity|split]]].
  - split; [exact H'|split; [|exact G]]. intros a I. apply B. apply in_or_app. auto.
  - cbn. intros a I. eapply free_all_dead; eauto.
  - intros top HT. apply (T_own m); auto. cbn. intros L. destruct (live (m_own m) top) eqn:D; auto.
    assert (live o top = false) by (eapply free_all_dead; eauto). congruence.
Qed.

Lemma push_ok : forall st old m X, good m (blk old ++ X) -> st <> SOuter ->
  spec m (push sc st old m) (fun a m' => good m' (blk a ++ X) /\ kept m m' /\ a <> None).
Proof.
  intros st old m X H NS. unfold push.
  assert (H' : good (ticked m) (blk old ++ X)) by (eapply good_own; eauto).
  assert (K : kept m (ticked m)) by kp.
  assert (HT : forall top, T top m -> T top (ticked m)) by (intros; apply (T_own m); auto).
  assert (GR : spec m (mbind (grow sc st old (ticked m)) (fun a m => MOk (Some a) m))
     (fun a m' => good m' (blk a ++ X) /\ kept m m' /\ a <> None)).
  { unfold grow. pose proof (take_ok st _ _ H' NS) as TK. destruct (take sc st (ticked m)) as [[a|] m1].
    - destruct TK as (G1 & K1 & N1 & _ & T1).
      destruct (mfree_ok (blk old) m1 (a :: X)) as (m2 & E & G2 & K2 & N2 & _ & T2).
      { eapply good_perm; eauto. perm. }
      rewrite E. cbn. split; [|intros; auto]. split; [exact G2|split; [kp|discriminate]].
    - destruct TK as (Hh & _ & T1). destruct st; cbn; auto. }
  destruct old as [b|]; auto. destruct (grows sc (m_tick m)); auto.
  cbn. split; auto. split; [exact H'|split; [kp|discriminate]].
Qed.

(** ** What the parser owns *)

Definition stores (f : store -> option addr) : list addr := flat_map (fun s => blk (f s)) all_stores.
Definition closed (p : option mblk) : list addr := match p with Some b => mblock_frees b | None => [] end.
Definition owned (m : mem) : list addr :=
  stores (m_store m) ++ errs_frees (m_errs m) ++ flat_map mblock_frees (m_stack m) ++ closed (m_prev m).

Arguments stores : simpl never.
Arguments errs_frees : simpl never.
Arguments mblock_frees : simpl never.

Lemma push_store_ok : forall s m X, good m (stores (m_store m) ++ X) ->
  spec m (push_store sc s m) (fun _ m' => good m' (stores (m_store m') ++ X) /\ m_errs m' = m_errs m /\ m_stack m' = m_stack m /\
    m_prev m' = m_prev m /\ same_maps (m_own m) (m_own m')).
Proof.
  intros s m X H. unfold push_store.
  set (others := flat_map (fun t => if store_eqb s t then [] else blk (m_store m t)) all_stores).
  assert (P : Permutation (stores (m_store m)) (blk (m_store m s) ++ others)).
  { unfold stores, others, all_stores. destruct s; cbn [flat_map store_eqb]; perm. }
  assert (P2 : forall a, Permutation (stores (fun t => if store_eqb s t then Some a else m_store m t)) (a :: others)).
  { intros a. unfold stores, others, all_stores. destruct s; cbn [flat_map store_eqb]; perm. }
  assert (NS : store_site s <> SOuter) by (destruct s; discriminate).
  assert (H1 : good m (blk (m_store m s) ++ others ++ X)).
  { eapply good_perm; eauto. rewrite app_assoc. apply Permutation_app_tail. exact P. }
  eapply spec_bind; [apply (push_ok _ _ _ _ H1 NS)|].
  intros a m' (G & K & NN) _. destruct a as [a|]; [|congruence].
  destruct K as (K1 & K2 & K3 & K4 & K5). cbn. split.
  - split; [|auto]. eapply good_own with (m := m'); auto. eapply good_perm; eauto.
    rewrite K1. cbn [blk app]. rewrite app_comm_cons. apply Permutation_app_tail. apply Permutation_sym, P2.
  - intros top HT. apply (T_own m'); auto.
Qed.

(** all that is allocated: what the parser owns and the rest [R]; the segments
    and results are [S] *)
Definition inv (S : (addr -> option segm) * (addr -> option resl)) (R : list addr) (m : mem) : Prop :=
  good m (owned m ++ R) /\ o_segs (m_own m) = fst S /\ o_ress (m_own m) = snd S.

Lemma mblock_free_ok : forall p m X, good m (closed p ++ X) ->
  exists m', mblock_free p m = MOk tt m' /\ good m' X /\ kept m m' /\ m_next m' = m_next m /\
    (forall a, In a (closed p) -> live (m_own m') a = false) /\ forall top, T top m -> T top m'.
Proof.
  intros [b|] m X H; cbn in *; [apply (mfree_ok _ _ _ H)|].
  exists m. split; [reflexivity|]. split; [exact H|]. split; [kp|]. split; [reflexivity|]. split; [contradiction|auto].
Qed.

Lemma self_in : forall b, In (k_self b) (mblock_frees b).
Proof. intros b. unfold mblock_frees. rewrite !in_app_iff. cbn. auto. Qed.

Lemma mblock_start_ok : forall S R m, inv S R m ->
  spec m (mblock_start sc SParse m) (fun a m' => inv S R m' /\ a = m_next m /\
    m_stack m' = mkmb a None None [] :: m_stack m /\ m_prev m' = m_prev m).
Proof.
  intros S R m (G & HS & HR). unfold mblock_start.
  pose proof (take_ok SParse m _ G ltac:(discriminate)) as TK. destruct (take sc SParse m) as [[a|] m1].
  2:{ cbn. tauto. }
  destruct TK as (G1 & K1 & N1 & E1 & T1).
  assert (G2 : good m1 (stores (m_store m1) ++ (errs_frees (m_errs m) ++ flat_map mblock_frees (m_stack m) ++ closed (m_prev m)) ++ R ++ [a])).
  { destruct K1 as (-> & _). eapply good_perm; eauto. unfold owned. perm. }
  destruct K1 as (K1 & K2 & K3 & K4 & K5).
  pose proof (push_store_ok VBlocks m1 _ G2) as SP.
  destruct (push_store sc VBlocks m1) as [[] m2|m2| |]; cbn in *; auto.
  - destruct SP as ((G3 & E2 & E3 & E4 & E5) & T2). split; [|].
    + split; [|split; [exact E1|split; [rewrite E3, K3; reflexivity|rewrite E4; exact K4]]].
      split; [|destruct E5, K5; cbn; split; congruence].
      eapply good_own with (m := m2); auto. eapply good_perm; eauto.
      unfold owned. cbn. rewrite E2, E3, E4, K2, K3, K4. cbn [flat_map]. change (mblock_frees (mkmb a None None [])) with [a]. perm.
    + intros top HT. specialize (T2 _ (T1 _ HT)). destruct T2 as [A B]. split; [exact A|].
      intros L. specialize (B L). unfold selfs in *. cbn. rewrite E3 in B. rewrite E3. right. exact B.
  - destruct SP as [Hh T2]. split; auto.
Qed.

Lemma mblock_end_ok : forall S R m b bs, inv S R m -> m_stack m = b :: bs ->
  spec m (mblock_end m) (fun b' m' => b' = b /\ inv S R m' /\ m_stack m' = bs /\ m_prev m' = Some b /\ m_next m' = m_next m).
Proof.
  intros S R m b bs (G & HS & HR) E. unfold mblock_end. rewrite E.
  destruct (mblock_free_ok (m_prev m) m (stores (m_store m) ++ errs_frees (m_errs m) ++ flat_map mblock_frees (m_stack m) ++ R))
    as (m1 & E1 & G1 & K1 & N1 & D1 & T1).
  { eapply good_perm; eauto. unfold owned. perm. }
  rewrite E1. cbn. destruct K1 as (K1 & K2 & K3 & K4 & K5). split.
  - split; [reflexivity|]. split; [|auto].
    split; [|destruct K5; cbn; split; congruence]. eapply good_own with (m := m1); auto. eapply good_perm; eauto.
    unfold owned. cbn. rewrite K1, K2, E. cbn [flat_map]. perm.
  - intros top HT. specialize (T1 _ HT). destruct T1 as [A B]. split; [exact A|].
    cbn. intros L. specialize (B L). unfold selfs in *. cbn in *. rewrite K3, K4, E in B.
    rewrite in_app_iff in *. cbn in *. destruct (m_prev m) as [p|]; cbn in *.
    + destruct B as [[B|B]|[B|[]]]; auto. exfalso. subst top. rewrite D1 in L; [discriminate|]. apply self_in.
    + destruct B as [[B|B]|[]]; auto.
Qed.

Definition like (q' q : mblk) (n : nat) : Prop := k_self q' = k_self q /\ List.length (k_trees q') = List.length (k_trees q) + n.

Lemma push_kids_ok : forall ts S R m q bs, good m (owned m ++ flat_map tree_frees ts ++ R) -> o_segs (m_own m) = fst S -> o_ress (m_own m) = snd S ->
  m_stack m = q :: bs ->
  spec m (push_kids sc ts m) (fun _ m' => inv S R m' /\ m_prev m' = m_prev m /\ exists q', m_stack m' = q' :: bs /\ like q' q (List.length ts)).
Proof.
  induction ts as [|t ts IH]; intros S R m q bs G HS HR E; cbn [push_kids].
  - apply spec_ret. cbn in G. split; [split; auto|]. split; auto. exists q. split; auto. split; cbn; auto.
  - rewrite E.
    eapply spec_bind.
    + apply push_ok with (X := stores (m_store m) ++ errs_frees (m_errs m) ++ (flat_map tree_frees (k_trees q) ++ blk (k_seq q) ++ [k_self q])
         ++ flat_map mblock_frees bs ++ closed (m_prev m) ++ flat_map tree_frees (t :: ts) ++ R); [|discriminate].
      eapply good_perm; eauto. unfold owned. rewrite E. cbn [flat_map]. unfold mblock_frees at 1. perm.
    + intros a m1 (G1 & K & _) TT. destruct K as (K1 & K2 & K3 & K4 & K5).
      destruct K5 as [K5 K6].
      set (q1 := mkmb (k_self q) (k_seq q) a (k_trees q ++ [t])). set (m2 := with_stack m1 (q1 :: bs)).
      assert (HT : forall top, T top m1 -> T top m2).
      { intros top [A B]. split; [exact A|]. cbn. intros L. specialize (B L). unfold selfs in *. rewrite K3, E in B. exact B. }
      assert (SP : spec m2 (push_kids sc ts m2)
        (fun _ m' => inv S R m' /\ m_prev m' = m_prev m2 /\ exists q', m_stack m' = q' :: bs /\ like q' q1 (List.length ts))).
      { apply IH; try (cbn; congruence). eapply good_own with (m := m1); auto. eapply good_perm; eauto.
        unfold owned. cbn. rewrite K1, K2, K4. unfold q1. perm. }
      change (m_prev m2) with (m_prev m1) in SP. rewrite K4 in SP.
      destruct (push_kids sc ts m2) as [[] m3|m3| |]; cbn in *; intuition auto.
      destruct H3 as (q' & A1 & A2 & A3). exists q'. split; auto. split; auto. rewrite A3. cbn. rewrite app_length. cbn. lia.
Qed.

Lemma T_same : forall m m' top, T top m -> m_own m' = m_own m -> m_next m' = m_next m -> selfs m' = selfs m -> T top m'.
Proof. intros m m' top [A B] E N S. unfold T. rewrite E, N, S. auto. Qed.

Lemma T_drop : forall m top, T top m -> (forall p, m_prev m = Some p -> live (m_own m) (k_self p) = false) -> T top (with_prev m None).
Proof.
  intros m top [A B] D. split; [exact A|]. cbn. intros L. specialize (B L). unfold selfs in *. cbn.
  rewrite in_app_iff in B. rewrite app_nil_r. destruct B as [B|B]; [exact B|].
  destruct (m_prev m) as [p|]; [|destruct B]. destruct B as [<-|[]]. rewrite (D p) in L; [discriminate|reflexivity].
Qed.

Lemma mblock_merge_ok : forall S R m b q bs, inv S R m -> m_stack m = b :: q :: bs ->
  spec m (mblock_merge sc m) (fun _ m' => inv S R m' /\ (exists q', m_stack m' = q' :: bs /\ like q' q (List.length (k_trees b))) /\
    exists p, m_prev m' = Some p /\ k_self p = k_self b /\ k_trees p = []).
Proof.
  intros S R m b q bs I E. unfold mblock_merge.
  eapply spec_bind; [apply (mblock_end_ok _ _ _ _ _ I E)|].
  intros b' m1 (-> & ((G & HS & HR) & E1 & P1 & N1)) _.
  set (b0 := mkmb (k_self b) (k_seq b) (k_kids b) []). set (m2 := with_prev m1 (Some b0)).
  assert (HT : forall top, T top m1 -> T top m2).
  { intros top HT. apply (T_same m1); auto. unfold selfs. cbn. rewrite P1. reflexivity. }
  assert (SP : spec m2 (push_kids sc (k_trees b) m2)
     (fun _ m' => inv S R m' /\ m_prev m' = m_prev m2 /\ exists q', m_stack m' = q' :: bs /\ like q' q (List.length (k_trees b)))).
  { apply push_kids_ok; auto. eapply good_own with (m := m1); auto. eapply good_perm; eauto.
    unfold owned. cbn. rewrite P1. cbn. unfold b0. destruct b as [b1 b2 b3 b4]. perm. }
  destruct (push_kids sc (k_trees b) m2) as [[] m3|m3| |]; cbn in *; auto.
  - destruct SP as ((A & B & C) & D). split; [|auto]. split; auto. split; auto. exists b0. auto.
  - destruct SP; auto.
Qed.

Lemma mblock_merge_ok0 : forall S R m b bs, inv S R m -> m_stack m = b :: bs -> k_trees b = [] ->
  spec m (mblock_merge sc m) (fun _ m' => inv S R m' /\ m_stack m' = bs /\
    exists p, m_prev m' = Some p /\ k_self p = k_self b /\ k_trees p = []).
Proof.
  intros S R m b bs I E B. unfold mblock_merge.
  eapply spec_bind; [apply (mblock_end_ok _ _ _ _ _ I E)|].
  intros b' m1 (-> & ((G & HS & HR) & E1 & P1 & N1)) _. rewrite B. cbn.
  destruct b as [b1 b2 b3 b4]. cbn in B. subst b4. cbn. split.
  - split; [|split; auto; eexists; split; [reflexivity|auto]].
    split; [|auto]. eapply good_own with (m := m1); auto. eapply good_perm; eauto. unfold owned. cbn. rewrite P1. cbn. perm.
  - intros top HT. apply (T_same m1); auto. unfold selfs. cbn. rewrite P1. reflexivity.
Qed.

Lemma take_many_ok : forall n m X, good m X ->
  spec m (take_many sc n m) (fun l m' => good m' (l ++ X) /\ kept m m' /\ List.length l = n).
Proof.
  induction n; intros m X G; cbn [take_many].
  - apply spec_ret. split; [exact G|split; [kp|reflexivity]].
  - pose proof (take_ok SParse m _ G ltac:(discriminate)) as TK. destruct (take sc SParse m) as [[a|] m1].
    + destruct TK as (G1 & K1 & _ & _ & T1).
      specialize (IHn m1 _ G1). destruct (take_many sc n m1) as [l m2|m2| |]; cbn in *; auto.
      * destruct IHn as ((G2 & K2 & L) & T2). split; auto. split; [|split; [kp|lia]].
        eapply good_perm; eauto. perm.
      * destruct IHn; auto.
    + cbn. tauto.
Qed.

Lemma mbuild_ok : forall term S R m b q bs, inv S R m -> m_prev m = Some b -> m_stack m = q :: bs ->
  spec m (mbuild sc term m) (fun _ m' => inv S R m' /\ m_prev m' = None /\ exists q', m_stack m' = q' :: bs /\ like q' q 1).
Proof.
  intros term S R m b q bs (G & HS & HR) P E. unfold mbuild. rewrite P.
  set (kids := if term then [] else k_trees b). set (left := if term then k_trees b else []).
  assert (PB : Permutation (flat_map tree_frees (k_trees b)) (flat_map tree_frees kids ++ flat_map tree_frees left)).
  { unfold kids, left. destruct term; cbn; rewrite ?app_nil_r; auto. }
  eapply spec_bind; [apply (take_many_ok _ _ _ G)|]. intros own m1 (G1 & K1 & L1) T1.
  assert (AR : spec m1 (match kids with [] => MOk [] m1 | _ => take_many sc 1 m1 end)
    (fun arr m' => good m' (blk (hd_error arr) ++ own ++ owned m ++ R) /\ kept m m')).
  { destruct kids.
    - apply spec_ret. split; [exact G1|exact K1].
    - eapply spec_weak; [apply (take_many_ok 1 _ _ G1)|]. intros l m' (A & B & C).
      destruct l as [|x [|]]; cbn in C; try lia. split; [exact A|kp]. }
  eapply spec_bind; [exact AR|]. clear AR. intros arr m2 (G2 & K2) T2.
  set (b0 := mkmb (k_self b) (k_seq b) (k_kids b) left).
  destruct K2 as (A1 & A2 & A3 & A4 & A5).
  destruct (mblock_free_ok (Some b0) m2 (stores (m_store m) ++ errs_frees (m_errs m) ++ flat_map mblock_frees (m_stack m) ++
     tree_frees (Tree own (hd_error arr) kids) ++ R)) as (m3 & E3 & G3 & K3 & N3 & D3 & T3).
  { eapply good_perm; eauto. unfold owned. rewrite P. cbn [closed]. unfold b0. destruct b as [b1 b2 b3 b4]. cbn [k_self k_seq k_kids k_trees] in *.
    rewrite !mblock_frees_eq. rewrite PB. perm. }
  rewrite E3. destruct K3 as (B1 & B2 & B3 & B4 & B5). destruct A5 as [A5 A6], B5 as [B5 B6].
  set (t := Tree own (hd_error arr) kids) in *.
  assert (SP : spec (with_prev m3 None) (push_kids sc [t] (with_prev m3 None))
     (fun _ m' => inv S R m' /\ m_prev m' = m_prev (with_prev m3 None) /\ exists q', m_stack m' = q' :: bs /\ like q' q 1)).
  { apply (push_kids_ok [t]); try (cbn; congruence). eapply good_own with (m := m3); auto. eapply good_perm; eauto.
    unfold owned. cbn [m_store m_errs m_stack m_prev with_prev closed]. rewrite B1, B2, B3, A1, A2, A3. unfold t. cbn [flat_map]. perm. }
  assert (HT : forall top, T top m2 -> T top (with_prev m3 None)).
  { intros top HT. apply T_drop; auto. rewrite B4, A4, P. intros p [= <-]. apply D3. apply (self_in b0). }
  cbn [mbind]. destruct (push_kids sc [t] (with_prev m3 None)) as [[] m4|m4| |]; cbn in *; auto.
  - destruct SP as (A & D). split; auto.
  - destruct SP; auto.
Qed.

Lemma add_contexts_ok : forall rs tl S R m, inv S R m -> m_errs m = rev rs ++ tl ->
  spec m (add_contexts sc rs m) (fun _ m' => inv S R m' /\ m_stack m' = m_stack m /\ m_prev m' = m_prev m).
Proof.
  induction rs as [|r rs IH]; intros tl S R m I E; cbn [add_contexts].
  - apply spec_ret. auto.
  - destruct (se_context r) eqn:C; [apply spec_ret; auto|].
    destruct I as (G & HS & HR).
    pose proof (take_ok SParse m _ G ltac:(discriminate)) as TK. destruct (take sc SParse m) as [[a|] m1].
    2:{ cbn. tauto. }
    destruct TK as (G1 & (K1 & K2 & K3 & K4 & K5 & K6) & N1 & _ & T1).
    rewrite K2, E. cbn [rev]. rewrite <- app_assoc. cbn [app].
    assert (SK : skipn (Datatypes.S (List.length rs)) (rev rs ++ r :: tl) = tl).
    { rewrite skipn_app. rewrite skipn_all2 by (rewrite rev_length; lia). rewrite rev_length.
      replace (Datatypes.S (List.length rs) - List.length rs) with 1 by lia. reflexivity. }
    rewrite SK. set (m2 := with_errs m1 (rev rs ++ mkserr (se_msg r) (Some a) :: tl)).
    assert (SP : spec m2 (add_contexts sc rs m2) (fun _ m' => inv S R m' /\ m_stack m' = m_stack m2 /\ m_prev m' = m_prev m2)).
    { apply IH with (tl := mkserr (se_msg r) (Some a) :: tl); [|reflexivity]. split; [|cbn; split; congruence].
      eapply good_own with (m := m1); auto. eapply good_perm; eauto.
      unfold owned. cbn [m_store m_errs m_stack m_prev m2 with_errs]. rewrite K1, K3, K4, E. cbn [rev].
      unfold errs_frees. rewrite <- app_assoc. cbn [app]. rewrite !flat_map_app. cbn [flat_map]. rewrite C. cbn [blk se_msg se_context]. perm. }
    change (m_stack m2) with (m_stack m1) in SP. change (m_prev m2) with (m_prev m1) in SP. rewrite K3, K4 in SP.
    assert (HT : forall top, T top m1 -> T top m2) by (intros; apply (T_same m1); auto).
    destruct (add_contexts sc rs m2) as [x m3|m3| |]; cbn in *; intuition auto.
Qed.

(** ** In step with the parse *)

Definition is_top (top : addr) (k : mblk) : bool := Nat.eqb (k_self k) top.

Definition kshape (top : addr) (k : mblk) : bool * nat := (is_top top k, List.length (k_trees k)).
Definition bshape (b : block) : bool * nat := (b_top b, List.length (b_kids b)).

(** the same blocks with as many trees *)
Definition shape (top : addr) (a : astate) (m : mem) : Prop :=
  map (kshape top) (m_stack m) = map bshape (a_blocks a) /\ option_map (kshape top) (m_prev m) = option_map bshape (a_prev a).

Definition ready (top : addr) S R (a : astate) (m : mem) : Prop := inv S R m /\ T top m /\ shape top a m.

Lemma stack_cons : forall top a m b bs, shape top a m -> a_blocks a = b :: bs ->
  exists k ks, m_stack m = k :: ks /\ kshape top k = bshape b /\ map (kshape top) ks = map bshape bs.
Proof.
  intros top a m b bs [H _] E. rewrite E in H. destruct (m_stack m) as [|k ks]; cbn in H; [discriminate|].
  inversion H as [[H1 H2 H3]]. exists k, ks. unfold kshape, bshape. rewrite H1, H2. auto.
Qed.

Lemma prev_some : forall top a m b, shape top a m -> a_prev a = Some b -> exists k, m_prev m = Some k /\ kshape top k = bshape b.
Proof.
  intros top a m b [_ H] E. rewrite E in H. destruct (m_prev m) as [k|]; cbn in H; [|discriminate].
  inversion H as [[H1 H2]]. exists k. unfold kshape, bshape. rewrite H1, H2. auto.
Qed.

Lemma kshape_like : forall top k k' n b ns, like k' k n -> kshape top k = bshape b -> List.length ns = n ->
  kshape top k' = (b_top b, List.length (b_kids b ++ ns)).
Proof.
  intros top k k' n b ns [A B] E L. unfold kshape, bshape, is_top in *. injection E as E1 E2. rewrite A, B, app_length. congruence.
Qed.

Lemma mrhs_ok : forall top S R e r a v a' m, eval_rhs e r a = XOk (v, a') -> ready top S R a m ->
  spec m (mrhs sc r m) (fun _ m' => ready top S R a' m').
Proof.
  intros top S R e r a v a' m E (I & HT & HS). destruct r as [x|c l]; cbn [mrhs]; cbn in E.
  - destruct (eval_arg x a); cbn in E; try discriminate. injection E as _ <-. apply spec_ret. split; auto.
  - destruct (eval_args l a) as [vs| | |]; cbn in E; try discriminate.
    unfold do_build in E. destruct (a_prev a) as [b|] eqn:P; cbn in E; [|discriminate].
    destruct (build_call c) as [ty bps]. cbn [fst].
    destruct (eval_bparams (e_inp e) b vs (a_sb a) (a_ops a) bps) as [[ps ops]|]; [|discriminate].
    destruct (terminal ty && nonempty (b_kids b)); [discriminate|].
    destruct (construct _ _ _ _ _) as [n|]; [|discriminate].
    destruct (a_blocks a) as [|q bs] eqn:B; [discriminate|]. cbn in E. injection E as _ <-.
    destruct (prev_some _ _ _ _ HS P) as (kp0 & P1 & P2). destruct (stack_cons _ _ _ _ _ HS B) as (kq & ks & Q1 & Q2 & Q3).
    pose proof (mbuild_ok (terminal ty) S R m kp0 kq ks I P1 Q1) as SP.
    destruct (mbuild sc (terminal ty) m) as [[] m'|m'| |]; cbn in *; auto.
    destruct SP as ((A & A2 & q' & A3 & A4) & A5). split; auto. split; auto. split; auto.
    split; cbn; [|rewrite A2; reflexivity]. rewrite A3. cbn [map]. rewrite (kshape_like top kq q' 1 q [n] A4 Q2 eq_refl), Q3. reflexivity.
Qed.

Lemma same_shape : forall top a a' m, shape top a m -> a_blocks a' = a_blocks a -> a_prev a' = a_prev a -> shape top a' m.
Proof. intros top a a' m [A B] E1 E2. unfold shape. rewrite E1, E2. auto. Qed.

Lemma put_slot_shape : forall k v a a', put_slot k v a = XOk a' -> a_blocks a' = a_blocks a /\ a_prev a' = a_prev a.
Proof.
  intros k v a a' E. unfold put_slot in E. destruct (a_frames a) as [|f fs]; [discriminate|].
  destruct (upd f k (Some v)); [|discriminate]. injection E as <-. auto.
Qed.

Lemma mstmt_ok : forall top S R e s a a' m, exec_stmt e s a = XOk a' -> ready top S R a m ->
  spec m (mstmt sc s a m) (fun _ m' => ready top S R a' m').
Proof.
  intros top S R e. fix IH 1. intros s a a' m E H. pose proof H as (I & HT & HS).
  assert (ST : forall st, spec m (push_store sc st m) (fun _ m' => inv S R m' /\ m_stack m' = m_stack m /\ m_prev m' = m_prev m)).
  { intros st. destruct I as (G & H1 & H2). eapply spec_weak.
    - apply (push_store_ok st m (errs_frees (m_errs m) ++ flat_map mblock_frees (m_stack m) ++ closed (m_prev m) ++ R)).
      eapply good_perm; eauto. unfold owned. perm.
    - intros [] m' (A & B & C & D & F1 & F2). split; auto. split; [|split; congruence].
      eapply good_perm; eauto. unfold owned. rewrite B, C, D. perm. }
  assert (KEEP : forall X (r : mres X), spec m r (fun _ m' => inv S R m' /\ m_stack m' = m_stack m /\ m_prev m' = m_prev m) ->
     a_blocks a' = a_blocks a -> a_prev a' = a_prev a -> spec m r (fun _ m' => ready top S R a' m')).
  { intros X r SP E1 E2. destruct r as [x m'|m'| |]; cbn in *; auto. destruct SP as ((A & B & C) & D). split; auto. split; auto. split; auto.
    apply (same_shape top a); auto. unfold shape. rewrite B, C. exact HS. }
  destruct s as [|x|x| |b| | |o|r|l r|x s]; cbn [mstmt]; cbn [exec_stmt] in E.
  - unfold do_finished in E. destruct (fill_contexts e (rev (a_errs a))); cbn in E; try discriminate. injection E as <-.
    apply KEEP; auto.
    assert (SP := add_contexts_ok (rev (m_errs m)) [] S R m I ltac:(rewrite rev_involutive, app_nil_r; reflexivity)).
    destruct (add_contexts sc (rev (m_errs m)) m); cbn in *; auto.
  - destruct (eval_arg x a); cbn in E; try discriminate. injection E as <-. apply KEEP; auto. apply spec_ret. auto.
  - destruct (eval_arg x a) as [v| | |]; cbn in E; try discriminate. unfold do_seq_add in E.
    destruct v as [n|]; [|discriminate]. destruct (a_blocks a) as [|q bs] eqn:B; [discriminate|]. injection E as <-.
    destruct (stack_cons _ _ _ _ _ HS B) as (kq & ks & Q1 & Q2 & Q3). rewrite Q1. destruct I as (G & H1 & H2).
    assert (SP : spec m (push sc SVector (k_seq kq) m) (fun z m' => good m' (blk z ++ stores (m_store m) ++ errs_frees (m_errs m) ++
        (flat_map tree_frees (k_trees kq) ++ blk (k_kids kq) ++ [k_self kq]) ++ flat_map mblock_frees ks ++ closed (m_prev m) ++ R) /\ kept m m' /\ z <> None)).
    { apply push_ok; [|discriminate]. eapply good_perm; eauto. unfold owned. rewrite Q1. cbn [flat_map].
      destruct kq as [k1 k2 k3 k4]. perm. }
    destruct (push sc SVector (k_seq kq) m) as [z m1|m1| |]; cbn in *; auto.
    destruct SP as ((A & (K1 & K2 & K3 & K4 & K5 & K6) & _) & D).
    assert (HT' : forall tp, T tp m1 -> T tp (with_stack m1 (mkmb (k_self kq) z (k_kids kq) (k_trees kq) :: ks))).
    { intros tp X. apply (T_same m1); auto. unfold selfs. cbn. rewrite K3, Q1. reflexivity. }
    split; auto. split; [|split; auto].
    + split; [|cbn; split; congruence]. eapply good_own with (m := m1); auto. eapply good_perm; eauto.
      unfold owned. cbn [m_store m_errs m_stack m_prev with_stack flat_map]. rewrite K1, K2, K4. perm.
    + split; cbn; [|rewrite K4; apply HS]. f_equal; [|exact Q3]. exact Q2.
  - injection E as <-. apply KEEP; auto. apply spec_ret. auto.
  - injection E as <-. apply KEEP; auto.
  - destruct (a_prev a) eqn:P; [|discriminate]. injection E as <-. apply KEEP; auto.
  - injection E as <-. apply KEEP; auto. apply spec_ret. auto.
  - injection E as <-. apply KEEP; auto.
  - destruct (eval_rhs e r a) as [[v b]| | |] eqn:ER; cbn in E; try discriminate. injection E as <-. eapply mrhs_ok; eauto.
  - destruct l as [|k].
    + destruct (eval_rhs e r a) as [[v b]| | |] eqn:ER; cbn in E; try discriminate. injection E as <-.
      eapply spec_weak; [eapply mrhs_ok; eauto|]. intros [] m' (A & B & C). split; auto.
    + destruct (eval_rhs e r a) as [[v b]| | |] eqn:ER; cbn in E; try discriminate. apply put_slot_shape in E as [E1 E2].
      eapply spec_weak; [eapply mrhs_ok; eauto|]. intros [] m' (A & B & C). split; auto. split; auto. eapply same_shape; eauto.
  - destruct (eval_arg x a) as [v| | |]; cbn in E; try discriminate.
    destruct v as [n|]; [destruct (is_a n T_IDENTIFIER)|]; try (eapply IH; eauto; fail).
    injection E as <-. apply spec_ret. exact H.
Qed.

Lemma mstmts_ok : forall top S R e l a a' m, exec_stmts e l a = XOk a' -> ready top S R a m ->
  spec m (mstmts sc e l a m) (fun _ m' => ready top S R a' m').
Proof.
  intros top S R e. induction l as [|s l IH]; intros a a' m E H; cbn in *.
  - injection E as <-. split; auto.
  - destruct (exec_stmt e s a) as [b| | |] eqn:E1; cbn in E; try discriminate.
    eapply spec_bind; [eapply mstmt_ok; eauto|]. intros [] m' H' _. eapply IH; eauto.
Qed.

Lemma close_shape : forall e p a b ps a', close_block e p a = XOk (b, ps, a') ->
  exists b0 bs, a_blocks a = b0 :: bs /\ bshape b = bshape b0 /\ a_blocks a' = bs /\ a_prev a' = Some b.
Proof.
  intros e p a b ps a' E. unfold close_block in E. destruct (x_position e p); cbn in E; try discriminate.
  destruct (a_blocks a) as [|b0 bs]; [discriminate|]. destruct (_ && _); [|discriminate].
  injection E as <- <- <-. exists b0, bs. auto.
Qed.

Lemma fresh_kshape : forall top a m, T top m -> a = m_next m -> kshape top (mkmb a None None []) = (false, 0).
Proof.
  intros top a m [H _] ->. unfold kshape, is_top. cbn. f_equal. apply Nat.eqb_neq. lia.
Qed.

Lemma maction_ok : forall top S R e t p a a' m, exec_action e t p a = XOk a' -> ready top S R a m ->
  spec m (maction sc e t a m) (fun _ m' => ready top S R a' m').
Proof.
  intros top S R e t p a a' m E H. pose proof H as (I & HT & HS).
  destruct t as [n|n|n| | | | |l]; cbn [maction]; cbn [exec_action] in E.
  - injection E as <-. apply spec_ret. split; auto.
  - injection E as <-. apply spec_ret. split; auto.
  - apply put_slot_shape in E as [E1 E2]. apply spec_ret. split; auto. split; auto. eapply same_shape; eauto.
  - unfold do_block_start in E. destruct (x_position e p) as [ps| | |]; cbn in E; try discriminate. injection E as <-.
    eapply spec_bind; [apply (mblock_start_ok _ _ _ I)|]. intros x m1 ((G & H1 & H2) & X & SK & PV) T1.
    destruct (mblock_free_ok (m_prev m1) m1 (stores (m_store m1) ++ errs_frees (m_errs m1) ++ flat_map mblock_frees (m_stack m1) ++ R))
      as (m2 & E2 & G2 & (K1 & K2 & K3 & K4 & K5) & N2 & D2 & T2).
    { eapply good_perm; eauto. unfold owned. perm. }
    rewrite E2. cbn [mbind].
    assert (TT : forall tp, T tp m1 -> T tp (with_prev m2 None)).
    { intros tp HH. apply T_drop; auto. rewrite K4. intros q Q. apply D2. rewrite Q. apply self_in. }
    split; auto. split; [|split; auto].
    + split; [|destruct K5; cbn; split; congruence]. eapply good_own with (m := m2); auto. eapply good_perm; eauto.
      unfold owned. cbn [m_store m_errs m_stack m_prev with_prev closed]. rewrite K1, K2, K3. perm.
    + split; [|destruct (a_prev a); reflexivity]. cbn [m_stack with_prev]. rewrite K3, SK. cbn [map].
      rewrite (fresh_kshape top x m HT X). destruct (a_prev a); cbn; (f_equal; apply HS).
  - unfold do_block_end in E. destruct (close_block e p a) as [[[b ps] c]| | |] eqn:C; cbn in E; try discriminate. injection E as <-.
    apply close_shape in C as (b0 & bs & B1 & B2 & B3 & B4).
    destruct (stack_cons _ _ _ _ _ HS B1) as (kq & ks & Q1 & Q2 & Q3).
    eapply spec_bind; [apply (mblock_end_ok _ _ _ _ _ I Q1)|]. intros x m1 (-> & I1 & S1 & P1 & N1) T1. apply spec_ret.
    split; auto. split; auto. split; [rewrite S1, B3; exact Q3|]. rewrite P1, B4. cbn. congruence.
  - unfold do_block_replace in E. destruct (close_block e p a) as [[[b ps] c]| | |] eqn:C; cbn in E; try discriminate. injection E as <-.
    apply close_shape in C as (b0 & bs & B1 & B2 & B3 & B4).
    destruct (stack_cons _ _ _ _ _ HS B1) as (kq & ks & Q1 & Q2 & Q3).
    eapply spec_bind; [apply (mblock_end_ok _ _ _ _ _ I Q1)|]. intros x m1 (-> & I1 & S1 & P1 & N1) T1.
    eapply spec_bind; [apply (mblock_start_ok _ _ _ I1)|]. intros x m2 (I2 & X & SK & PV) T2. apply spec_ret.
    split; auto. split; auto. split; [|rewrite PV, P1; cbn; rewrite B4; cbn; congruence].
    rewrite SK, S1. cbn [map]. rewrite (fresh_kshape top x m1 (T1 _ HT) X). cbn. rewrite B3, Q3. reflexivity.
  - unfold do_block_merge in E. destruct (close_block e p a) as [[[b ps] c]| | |] eqn:C; cbn in E; try discriminate.
    apply close_shape in C as (b0 & bs & B1 & B2 & B3 & B4).
    destruct (stack_cons _ _ _ _ _ HS B1) as (kq & ks & Q1 & Q2 & Q3).
    assert (L : List.length (k_trees kq) = List.length (b_kids b)).
    { unfold kshape, bshape in *. congruence. }
    assert (TP : is_top top kq = b_top b) by (unfold kshape, bshape in *; congruence).
    destruct (b_kids b) as [|n1 ns] eqn:KB.
    + injection E as <-. destruct (k_trees kq) eqn:KT; [|discriminate].
      pose proof (mblock_merge_ok0 _ _ _ _ _ I Q1 KT) as SP. destruct (mblock_merge sc m) as [[] m'|m'| |]; cbn in *; auto.
      destruct SP as ((I1 & S1 & q & P1 & P2 & P3) & D). split; auto. split; auto. split; auto.
      split; [rewrite S1, B3; exact Q3|]. rewrite P1, B4. cbn. unfold kshape, bshape, is_top in *. rewrite P2, P3, KB, TP. reflexivity.
    + rewrite B3 in E. destruct bs as [|b1 bs]; [discriminate|]. injection E as <-.
      destruct ks as [|kq1 ks]; [discriminate|].
      assert (Q4 : kshape top kq1 = bshape b1) by (exact (f_equal (hd (false, 0)) Q3)).
      assert (Q5 : map (kshape top) ks = map bshape bs) by (exact (f_equal (@tl _) Q3)).
      pose proof (mblock_merge_ok _ _ _ _ _ _ I Q1) as SP. destruct (mblock_merge sc m) as [[] m'|m'| |]; cbn in *; auto.
      destruct SP as ((I1 & (q1 & S1 & LK) & q & P1 & P2 & P3) & D). split; auto. split; auto. split; auto.
      split; cbn; [rewrite S1; cbn; rewrite (kshape_like _ _ _ _ _ (n1 :: ns) LK Q4 (eq_sym L)), Q5; reflexivity|].
      rewrite P1. cbn. unfold kshape, bshape, is_top in *. rewrite P2, P3, TP. reflexivity.
  - eapply mstmts_ok; eauto.
Qed.

(** What running the actions does *)
Definition ran (top : addr) S R (x : xres astate) (r : mres unit) : Prop :=
  match r with
  | MOk _ m' => exists a', x = XOk a' /\ ready top S R a' m'
  | MAbort m' => hit /\ T top m'
  | MUndef => hit
  | MStop => forall a', x <> XOk a'
  end.

Lemma mexec_ok : forall top S R e ts a m, ready top S R a m -> ran top S R (exec e ts a) (mexec sc e ts a m).
Proof.
  intros top S R e. induction ts as [|[t p] ts IH]; intros a m H; cbn [mexec exec].
  - cbn. eauto.
  - destruct (exec_action e t p a) as [a1| | |] eqn:E; cbn [xbind]; try (cbn; discriminate).
    pose proof (maction_ok top S R e t p a a1 m E H) as SP. destruct (maction sc e t a m) as [[] m1|m1| |]; cbn in *; auto.
    + apply IH. tauto.
    + destruct SP as [SP1 SP2]. split; auto. apply SP2. apply H.
Qed.

Lemma mevents_ok : forall l S R m, inv S R m ->
  spec m (mevents sc l m) (fun _ m' => inv S R m' /\ m_stack m' = m_stack m /\ m_prev m' = m_prev m).
Proof.
  assert (ST : forall st S R m, inv S R m -> spec m (push_store sc st m) (fun _ m' => inv S R m' /\ m_stack m' = m_stack m /\ m_prev m' = m_prev m)).
  { intros st S R m (G & H1 & H2). eapply spec_weak.
    - apply (push_store_ok st m (errs_frees (m_errs m) ++ flat_map mblock_frees (m_stack m) ++ closed (m_prev m) ++ R)).
      eapply good_perm; eauto. unfold owned. perm.
    - intros [] m' (A & B & C & D & F1 & F2). split; auto. split; [|split; congruence].
      eapply good_perm; eauto. unfold owned. rewrite B, C, D. perm. }
  induction l as [|v l IH]; intros S R m I; cbn [mevents].
  - apply spec_ret. auto.
  - eapply spec_bind with (Q := fun _ m' => inv S R m' /\ m_stack m' = m_stack m /\ m_prev m' = m_prev m).
    + destruct v as [s|]; cbn [mevent]; [apply ST; exact I|].
      eapply spec_bind; [apply ST; exact I|]. intros [] m1 ((G & H1 & H2) & S1 & P1) _.
      pose proof (take_ok SParse m1 _ G ltac:(discriminate)) as TK. destruct (take sc SParse m1) as [[a|] m2].
      2:{ cbn. tauto. }
      destruct TK as (G1 & (K1 & K2 & K3 & K4 & K5 & K6) & N1 & _ & T1).
      cbn. split; [|intros; apply (T_same m2); auto]. split; [|split; congruence].
      split; [|cbn; split; congruence]. eapply good_own with (m := m2); auto. eapply good_perm; eauto.
      unfold owned. cbn [m_store m_errs m_stack m_prev with_errs]. rewrite K1, K2, K3, K4. unfold errs_frees. rewrite flat_map_app.
      cbn [flat_map se_msg se_context blk]. perm.
    + intros [] m1 (I1 & S1 & P1) T1. eapply spec_weak; [apply (IH S R); exact I1|].
      intros [] m' (A & B & C). split; auto. split; congruence.
Qed.

(** One call of parse_one: the stack holds the top block before and after *)
Definition rests (top : addr) (n : nat) (m : mem) : Prop :=
  m_prev m = None /\ exists k, m_stack m = [k] /\ k_self k = top /\ List.length (k_trees k) = n.

Lemma mmatch_ok : forall i cf la r inp y top S R m, inv S R m -> top < m_next m -> rests top 0 m ->
  match mmatch sc i cf la r inp y m with
  | MOk _ m' => parse_one cf la r inp y = RdAssert \/ exists p lines a u b, parse_one cf la r inp y = RdOk p lines a u /\ inv S R m' /\
      top < m_next m' /\ a_blocks a = [b] /\ rests top (List.length (b_kids b)) m'
  | MAbort m' => (hit \/ parse_one cf la r inp y = RdFail) /\ T top m'
  | MUndef => hit
  | MStop => forall p lines a u, parse_one cf la r inp y <> RdOk p lines a u
  end.
Proof.
  intros i cf la r inp y top S R m I LT (PV & k & SK & KS & KT). unfold mmatch.
  assert (HT : T top m). { split; auto. intros _. unfold selfs. rewrite SK. left. exact KS. }
  pose proof (mevents_ok (events sc i) S R m I) as SP. destruct (mevents sc (events sc i) m) as [[] m1|m1| |]; cbn [mbind]; cbn in SP; auto.
  2:{ destruct SP as [A B]. auto. }
  destruct SP as ((I1 & S1 & P1) & T1). specialize (T1 _ HT).
  assert (PO : parse_one cf la r inp y = finish_one cf la inp y (crun (cf_color cf) (y_off y) (cfuel inp) inp (PRule r) (match_start y))).
  { Transparent parse_one. reflexivity. Opaque parse_one. }
  rewrite PO. clear PO. destruct (crun _ _ _ _ _ _) as [s|s| |]; cbn [finish_one]; auto; try discriminate.
  set (e := mkxe _ _ _ _ _). set (a0 := mkas _ _ _ _ _ _ _ _ _ _ _ _).
  assert (R0 : ready top S R a0 m1).
  { split; auto. split; auto. unfold shape. rewrite S1, P1, SK, PV. cbn. unfold kshape, is_top. rewrite KS, KT, Nat.eqb_refl. auto. }
  pose proof (mexec_ok top S R e (rev (thunks s)) a0 m1 R0) as X.
  destruct (mexec sc e (rev (thunks s)) a0 m1) as [[] m2|m2| |]; cbn [ran] in X; auto.
  - destruct X as (a & XE & I2 & T2 & SH). rewrite XE.
    destruct (a_blocks a) as [|b [|]] eqn:AB; auto.
    destruct (b_top b) eqn:BT; auto. destruct (nonempty (b_seq b)); auto. destruct (a_prev a) eqn:AP; auto. cbn [negb andb].
    destruct (nonempty (a_ops a)); auto. destruct (nonempty (c_precs (user s))); auto.
    right. exists (pos s), (c_lines (user s)), a, (user s), b. split; auto. split; auto. split; [apply T2|]. split; auto.
    destruct SH as [SH1 SH2]. rewrite AB in SH1. rewrite AP in SH2. split.
    + destruct (m_prev m2); [discriminate|reflexivity].
    + destruct (m_stack m2) as [|k2 [|]]; try discriminate. exists k2. cbn in SH1. unfold kshape, bshape, is_top in SH1.
      injection SH1 as E1 E2. rewrite BT in E1. apply Nat.eqb_eq in E1. auto.
  - destruct X; auto.
  - destruct (exec e (rev (thunks s)) a0) as [a| | |] eqn:XE; try discriminate. destruct (X a eq_refl).
Qed.

(** ** parse_one fails: the top block is freed, and freed again *)
Lemma mfree_dead : forall l m m', mfree l m = MOk tt m' ->
  m_stack m' = m_stack m /\ m_prev m' = m_prev m /\ forall a, In a l \/ live (m_own m) a = false -> live (m_own m') a = false.
Proof.
  intros l m m' E. unfold mfree in E. destruct (free_all l (m_own m)) as [o|] eqn:F; [|discriminate]. injection E as <-.
  cbn. split; auto. split; auto. intros a. eapply free_all_dead; eauto.
Qed.

Lemma free_stack_dead : forall l m m', free_stack l m = MOk tt m' ->
  m_prev m' = m_prev m /\ forall a, In a (map k_self l) \/ live (m_own m) a = false -> live (m_own m') a = false.
Proof.
  induction l as [|b l IH]; intros m m' E; cbn in *.
  - injection E as <-. split; auto. tauto.
  - destruct (mfree (mblock_frees b) m) as [[] m1|m1| |] eqn:F; cbn in E; try discriminate.
    apply mfree_dead in F as (_ & F1 & F2). apply IH in E as [E1 E2]. split; [congruence|].
    intros a H. apply E2. destruct H as [[<-|H]|H]; auto. right. apply F2. left. apply self_in.
Qed.

Lemma mfailed_dead : forall top m m', T top m -> mfailed m = MOk tt m' -> live (m_own m') top = false.
Proof.
  intros top m m' [_ HT] E. unfold mfailed in E.
  destruct (free_stack (m_stack m) (with_stack m [])) as [[] m1|m1| |] eqn:F; cbn in E; try discriminate.
  apply free_stack_dead in F as [F1 F2]. cbn in F1.
  destruct (mblock_free (m_prev m1) m1) as [[] m2|m2| |] eqn:B; cbn in E; try discriminate. injection E as <-. cbn.
  rewrite F1 in B. destruct (live (m_own m) top) eqn:L.
  2:{ assert (D : live (m_own m1) top = false) by (apply F2; cbn; auto). destruct (m_prev m); cbn in B; [|injection B as <-; auto].
      apply mfree_dead in B as (_ & _ & B). auto. }
  specialize (HT eq_refl). unfold selfs in HT. apply in_app_iff in HT as [HT|HT].
  - assert (D : live (m_own m1) top = false) by (apply F2; auto). destruct (m_prev m); cbn in B; [|injection B as <-; auto].
    apply mfree_dead in B as (_ & _ & B). auto.
  - destruct (m_prev m); [|destruct HT]. destruct HT as [<-|[]]. cbn in B. apply mfree_dead in B as (_ & _ & B). apply B. left. apply self_in.
Qed.

Lemma aborted : forall top m z, T top m -> done z (mbind (mfailed m) (fun _ m => mcleanup (Some top) m)) = MBad.
Proof.
  intros top m z HT. destruct (mfailed m) as [[] m1|m1| |] eqn:E; cbn [mbind]; try reflexivity.
  - unfold mcleanup, free_top. rewrite (mfailed_dead top m m1 HT E). reflexivity.
  - exfalso. unfold mfailed in E. assert (FS : forall l m, free_stack l m <> MStop).
    { induction l as [|b l IH]; intros m0; cbn; [discriminate|]. unfold mfree. destruct (free_all _ _); cbn; [apply IH|discriminate]. }
    destruct (free_stack (m_stack m) (with_stack m [])) as [[] m2|m2| |] eqn:F; cbn in E; try discriminate; [|apply (FS _ _ F)].
    destruct (m_prev m2) as [b|]; cbn in E; [|discriminate]. unfold mfree in E. destruct (free_all _ _); discriminate.
Qed.

(** ** The end of parse_each *)
Lemma mcleanup_ok : forall top n R m, good m (owned m ++ R) -> rests top n m ->
  exists m', mcleanup (Some top) m = MOk tt m' /\ good m' R /\ same_maps (m_own m) (m_own m') /\ m_log m' = m_log m.
Proof.
  intros top n R m G (PV & k & SK & KS & KT). unfold mcleanup, free_top.
  assert (L : live (m_own m) top = true).
  { apply live_in. destruct G as ((_ & P) & _). apply (Permutation_in _ (Permutation_sym P)).
    unfold owned. rewrite SK. cbn [flat_map]. rewrite !in_app_iff. rewrite <- KS. pose proof (self_in k). tauto. }
  rewrite L, SK. cbn [find]. rewrite KS, Nat.eqb_refl.
  assert (LG : forall l m m', mfree l m = MOk tt m' -> m_log m' = m_log m).
  { intros l m0 m' E. unfold mfree in E. destruct (free_all _ _); [|discriminate]. injection E as <-. reflexivity. }
  destruct (mblock_free_ok (Some k) m (stores (m_store m) ++ errs_frees (m_errs m) ++ R)) as (m1 & E1 & G1 & (K1 & K2 & K3 & K4 & K5) & _).
  { eapply good_perm; eauto. unfold owned. rewrite SK, PV. cbn [flat_map closed]. perm. }
  rewrite E1. cbn [mbind]. set (m2 := with_stack m1 _).
  destruct (mfree_ok (errs_frees (m_errs m2)) m2 (stores (m_store m2) ++ R)) as (m3 & E3 & G3 & (A1 & A2 & A3 & A4 & A5) & _).
  { eapply good_own with (m := m1); auto. eapply good_perm; eauto. unfold m2. cbn [m_errs m_store with_stack]. rewrite K1, K2. perm. }
  rewrite E3. cbn [mbind]. rewrite A1. fold (stores (m_store m2)).
  destruct (mfree_ok (stores (m_store m2)) m3 R G3) as (m4 & E4 & G4 & (B1 & B2 & B3 & B4 & B5) & _).
  exists m4. split; [exact E4|]. split; [exact G4|]. split; [unfold same_maps in *; cbn in *; intuition congruence|].
  rewrite (LG _ _ _ E4), (LG _ _ _ E3). unfold m2. cbn. apply (LG _ _ _ E1).
Qed.

(** ** Segments *)
Definition below (n : nat) (L : list addr) : Prop := forall a, In a L -> a < n.

Lemma below_perm : forall n L L', below n L -> Permutation L L' -> below n L'.
Proof. intros n L L' B P a I. apply B. apply (Permutation_in _ (Permutation_sym P)). exact I. Qed.

Lemma below_le : forall n n' L, below n L -> n <= n' -> below n' L.
Proof. intros n n' L B H a I. apply B in I. lia. Qed.

Lemma alloc_below : forall o L n a, holds o L -> below n L -> n <= a -> holds (alloc a o) (a :: L) /\ below (S a) (a :: L).
Proof.
  intros o L n a H B LE. split.
  - apply holds_alloc; auto. intros I. apply B in I. lia.
  - intros x [<-|I]; [lia|]. apply B in I. lia.
Qed.

Definition drawn (f : bool) (n : nat) : option addr := if f then None else Some n.

Lemma seg_new_ok : forall errs trees nn dir eof n f1 f2 f3 o X,
  holds o (errs_frees errs ++ flat_map tree_frees trees ++ X) -> below n (errs_frees errs ++ flat_map tree_frees trees ++ X) ->
  exists o' ok, seg_new errs trees nn dir eof (drawn f1 n) (drawn f2 (1 + n)) (drawn f3 (2 + n)) o = Some (o', ok) /\
    o_ress o' = o_ress o /\
    if ok then f1 = false /\ exists g, o_segs o' = AnnotModel.upd (o_segs o) n (Some g) /\ g_refcount g = 1%N /\
      holds o' (seg_frees n g ++ X) /\ below (3 + n) (seg_frees n g ++ X)
    else f1 || f2 || f3 = true /\ holds o' (errs_frees errs ++ flat_map tree_frees trees ++ X) /\ o_segs o' = o_segs o.
Proof.
  intros errs trees nn dir eof n f1 f2 f3 o X H B. unfold seg_new.
  destruct f1; cbn [drawn]; [exists o, false; auto|].
  destruct (alloc_below _ _ _ n H B (le_n _)) as [H1 B1].
  assert (FAIL : forall e o' Y, holds o' (blk e ++ n :: Y) -> exists o'', (do o <- free_all (blk e ++ [n]) o'; Some (o, false)) = Some (o'', false) /\
    holds o'' Y /\ same_maps o' o'').
  { intros e o' Y H'. destruct (free_all_holds (blk e ++ [n]) o' Y) as (o'' & E & A & C).
    - eapply holds_perm; eauto. perm.
    - exists o''. rewrite E. auto. }
  assert (REST : forall e o1, holds o1 (blk e ++ n :: errs_frees errs ++ flat_map tree_frees trees ++ X) ->
     below (2 + n) (blk e ++ n :: errs_frees errs ++ flat_map tree_frees trees ++ X) -> o_segs o1 = o_segs o -> o_ress o1 = o_ress o ->
     exists o' ok, match trees, drawn f3 (2 + n) with
        | _ :: _, None => do o <- free_all (blk e ++ [n]) o1; Some (o, false)
        | _ :: _, Some b => Some (set_seg (alloc b o1) n (Some (mksegm 1 e errs (Some b) trees nn dir eof)), true)
        | [], _ => Some (set_seg o1 n (Some (mksegm 1 e errs None trees nn dir eof)), true)
        end = Some (o', ok) /\ o_ress o' = o_ress o /\
    if ok then false = false /\ exists g, o_segs o' = AnnotModel.upd (o_segs o) n (Some g) /\ g_refcount g = 1%N /\
      holds o' (seg_frees n g ++ X) /\ below (3 + n) (seg_frees n g ++ X)
    else false || f2 || f3 = true /\ holds o' (errs_frees errs ++ flat_map tree_frees trees ++ X) /\ o_segs o' = o_segs o).
  { intros e o1 H' B' S1 S2. destruct trees as [|t ts].
    - eexists _, true. split; [reflexivity|]. cbn. split; auto. split; auto. eexists. rewrite S1. split; [reflexivity|]. split; auto.
      assert (PP : Permutation (blk e ++ n :: errs_frees errs ++ [] ++ X) (seg_frees n (mksegm 1 e errs None [] nn dir eof) ++ X)) by (unfold seg_frees; cbn; perm).
      split; [apply (holds_perm _ _ _ H' PP)|]. eapply below_le; [eapply below_perm; [exact B'|exact PP]|lia].
    - destruct f3; cbn [drawn].
      + destruct (FAIL _ _ _ H') as (o2 & E & A & C1 & C2). rewrite E. exists o2, false. split; auto. split; [congruence|].
        rewrite orb_true_r. split; auto. split; auto. congruence.
      + eexists _, true. split; [reflexivity|]. cbn. split; auto. split; auto. eexists. rewrite S1. split; [reflexivity|]. split; auto.
        destruct (alloc_below _ _ _ (2 + n) H' B' (le_n _)) as [H2 B2].
        assert (PP : Permutation ((2 + n) :: blk e ++ n :: errs_frees errs ++ flat_map tree_frees (t :: ts) ++ X)
           (seg_frees n (mksegm 1 e errs (Some (2 + n)) (t :: ts) nn dir eof) ++ X)) by (unfold seg_frees; cbn [g_errs g_errors g_trees g_roots]; perm).
        split; [apply (holds_perm _ _ _ H2 PP)|]. eapply below_perm; [exact B2|exact PP]. }
  destruct errs as [|r rs].
  - apply (REST None (alloc n o)); auto. eapply below_le; [exact B1|lia].
  - destruct f2; cbn [drawn].
    + destruct (FAIL None (alloc n o) _ H1) as (o2 & E & A & C1 & C2). exists o2, false. split; [exact E|]. auto.
    + destruct (alloc_below _ _ _ (1 + n) H1 B1 (le_n _)) as [H2 B2]. apply (REST (Some (1 + n)) (alloc (1 + n) (alloc n o))); auto.
Qed.

(** an allocation of parse_each, segment.c or result.c failed *)
Definition ofail (m : mem) : Prop := exists n, In (SOuter, n) (m_log m) /\ fails sc SOuter n = true.

Lemma good_bound : forall m L, good m L -> below (m_next m) L.
Proof. intros m L (_ & B & _). exact B. Qed.

Definition stack_top (m : mem) : list tree := match m_stack m with b :: _ => k_trees b | [] => [] end.

(** what the parser owns when the segment has taken the errors and the trees *)
Definition passed (m : mem) : mem :=
  match m_stack m with b :: _ => with_errs (with_stack m [mkmb (k_self b) (k_seq b) (k_kids b) []]) [] | [] => m end.

Lemma msegment_ok : forall top n nn dir eof R m, good m (owned m ++ R) -> rests top n m ->
  exists r m', msegment sc nn dir eof (stack_top m) m = MOk r m' /\ o_ress (m_own m') = o_ress (m_own m) /\ m_stack m' = m_stack m /\ rests top n m' /\
    m_next m' = 3 + m_next m /\ 
    match r with
    | None => ofail m' /\ good m' (owned m' ++ R) /\ o_segs (m_own m') = o_segs (m_own m)
    | Some s => s = m_next m /\ exists g, o_segs (m_own m') = AnnotModel.upd (o_segs (m_own m)) s (Some g) /\ g_refcount g = 1%N /\
        good (passed m') (owned (passed m') ++ seg_frees s g ++ R)
    end.
Proof.
  intros top n nn dir eof R m G (PV & k & SK & KS & KT). unfold msegment, stack_top. rewrite SK.
  set (n0 := m_next m).
  destruct (seg_new_ok (m_errs m) (k_trees k) nn dir eof n0 (fails sc SOuter n0) (fails sc SOuter (1 + n0)) (fails sc SOuter (2 + n0)) (m_own m)
     (stores (m_store m) ++ (blk (k_seq k) ++ blk (k_kids k) ++ [k_self k]) ++ R)) as (o' & ok & E & RS & H).
  { destruct G as (H & _). eapply holds_perm; [exact H|]. unfold owned. rewrite SK, PV. cbn [flat_map closed]. destruct k as [k1 k2 k3 k4]. perm. }
  { eapply below_perm; [apply (good_bound _ _ G)|]. unfold owned. rewrite SK, PV. cbn [flat_map closed]. destruct k as [k1 k2 k3 k4]. perm. }
  unfold draw. cbn [m_next m_errs m_own]. fold n0. unfold drawn in E. cbn [Nat.add] in E. replace (seg_new _ _ _ _ _ _ _ _ _) with (Some (o', ok)) by (symmetry; exact E).
  assert (LG : forall m', m_log m' = (SOuter, S (S n0)) :: (SOuter, S n0) :: (SOuter, n0) :: m_log m -> logged m').
  { intros m' EL st j I. rewrite EL in I. destruct I as [[= <- <-]|[[= <- <-]|[[= <- <-]|I]]]; auto. apply G. exact I. }
  destruct ok.
  - destruct H as (F1 & g & HS & RC & HH & HB). rewrite F1. eexists (Some n0), _. split; [reflexivity|].
    cbn [m_own with_own]. split; [exact RS|]. split; [exact SK|]. split; [split; [exact PV|exists k; auto]|]. split; [reflexivity|].
    split; auto. exists g. split; [exact HS|]. split; auto.
    unfold passed. cbn [m_stack with_own]. rewrite SK.
    assert (PP : Permutation (seg_frees n0 g ++ stores (m_store m) ++ (blk (k_seq k) ++ blk (k_kids k) ++ [k_self k]) ++ R)
      ((stores (m_store m) ++ errs_frees [] ++ flat_map mblock_frees [mkmb (k_self k) (k_seq k) (k_kids k) []] ++ closed (m_prev m)) ++ seg_frees n0 g ++ R)).
    { rewrite PV. change (errs_frees []) with (@nil addr). cbn [flat_map closed]. destruct k as [k1 k2 k3 k4]. perm. }
    split; [|split].
    + cbn. eapply holds_perm; [exact HH|exact PP].
    + cbn. eapply below_perm; [exact HB|exact PP].
    + apply LG. reflexivity.
  - destruct H as (F1 & HH & HS). eexists _, _. split; [reflexivity|]. cbn [m_own with_own]. split; [exact RS|]. split; [exact SK|].
    split; [split; [exact PV|exists k; auto]|]. split; [reflexivity|]. split; [|split; [|exact HS]].
    + unfold ofail. cbn [m_log with_own]. destruct (fails sc SOuter n0) eqn:Q1; [exists n0; cbn; auto|].
      destruct (fails sc SOuter (S n0)) eqn:Q2; [exists (S n0); cbn; auto|]. cbn in F1. rewrite Q2 in F1. exists (S (S n0)). split; [left; reflexivity|exact F1].
    + assert (PP : Permutation (errs_frees (m_errs m) ++ flat_map tree_frees (k_trees k) ++ stores (m_store m) ++ (blk (k_seq k) ++ blk (k_kids k) ++ [k_self k]) ++ R)
        (owned m ++ R)).
      { unfold owned. rewrite SK, PV. cbn [flat_map closed]. destruct k as [k1 k2 k3 k4]. perm. }
      split; [|split].
      * cbn [m_own with_own]. eapply holds_perm; [exact HH|]. exact PP.
      * cbn. eapply below_le; [eapply (good_bound _ _ G)|]. cbn. lia.
      * apply LG. reflexivity.
Qed.

(** ** The loop, for any callback that behaves *)
Definition agree (o o' : own) : Prop := o_segs o' = o_segs o /\ o_ress o' = o_ress o.

(** [o'] is [o] with the segment [s] added *)
Definition entered (s : addr) (g : segm) (o o' : own) : Prop :=
  o_segs o' = AnnotModel.upd (o_segs o) s (Some g) /\ o_ress o' = o_ress o.

Definition aside (m m' : mem) : Prop :=
  m_store m' = m_store m /\ m_errs m' = m_errs m /\ m_stack m' = m_stack m /\ m_prev m' = m_prev m.

Definition cb_ok (value : nat -> Z) (P : nat -> own -> list addr -> Prop) (cb : mcallback) : Prop :=
  forall i s g R m o0, good m (owned m ++ seg_frees s g ++ R) -> entered s g o0 (m_own m) -> g_refcount g = 1%N -> P i o0 R ->
  exists err m', cb i s m = MOk err m' /\ aside m m' /\ m_next m <= m_next m' /\
    exists o l R', seg_release s (m_own m') = Some (o, l) /\ good (with_own m' o) (owned m ++ R') /\
      (err = value i /\ P (S i) o R' \/ err = (-1)%Z /\ ofail m' /\ P i o R').

Lemma owned_aside : forall m m', aside m m' -> owned m' = owned m.
Proof. intros m m' (A & B & C & D). unfold owned. rewrite A, B, C, D. reflexivity. Qed.

Lemma rests_aside : forall top n m m', aside m m' -> rests top n m -> rests top n m'.
Proof. intros top n m m' (A & B & C & D) (PV & k & H). split; [congruence|]. exists k. rewrite C. exact H. Qed.

(** ploop with a callback that counts *)
Definition counting (value : nat -> Z) : callback := fun segs => value (List.length segs - 1).

Definition ended (P : nat -> own -> list addr -> Prop) (x : presult) (r : mout) : Prop :=
  match r with
  | MRet z m => logged m /\ exists i R, P i (m_own m) R /\ good m R /\ 
      ((exists segs last, x = PRet z segs last /\ i = List.length segs) \/ z = (-1)%Z /\ ofail m)
  | MBad => hit \/ x = PFailed
  | MAssert | MFuel => forall z segs last, x <> PRet z segs last
  end.

Lemma mloop_ok : forall value P cb, cb_ok value P cb -> (forall i o o' R, agree o o' -> P i o R -> P i o' R) ->
  forall k cf la fl inp ordinal y segs last (top : addr) R m,
  good m (owned m ++ R) -> P (List.length segs) (m_own m) R -> top < m_next m -> rests top 0 m ->
  ended P (ploop k cf la (counting value) fl inp ordinal y segs last) (mloop sc k (List.length segs) cf la cb fl inp y top m).
Proof.
  intros value P cb CB ST. induction k as [|k IH]; intros cf la fl inp ordinal y segs last top R m G HP LT RE; cbn [ploop mloop].
  { cbn. discriminate. }
  assert (FIN : forall z n m R i, good m (owned m ++ R) -> P i (m_own m) R -> rests top n m ->
     exists m', done z (mcleanup (Some top) m) = MRet z m' /\ logged m' /\ P i (m_own m') R /\ good m' R /\ (ofail m -> ofail m')).
  { intros z n m0 R0 i0 G0 P0 RE0. destruct (mcleanup_ok top n R0 m0 G0 RE0) as (m' & E & G' & (S1 & S2) & L). exists m'. rewrite E. cbn.
    split; auto. split; [apply G'|]. split; [|split; auto; unfold ofail; rewrite L; auto].
    apply (ST i0 (m_own m0)); auto. split; auto. }
  set (S0 := (o_segs (m_own m), o_ress (m_own m))).
  pose proof (mmatch_ok (List.length segs) cf la (start_rule fl) inp y top S0 R m ltac:(split; auto) LT RE) as MM.
  destruct (mmatch sc (List.length segs) cf la (start_rule fl) inp y m) as [[] m1|m1| |].
  - destruct MM as [->|(p & lines & a & u & b & -> & (G1 & MS & MR) & LT1 & AB & RE1)]; [cbn; discriminate|].
    assert (P1 : P (List.length segs) (m_own m1) R).
    { apply (ST _ (m_own m)); auto. split; [|exact MR]. rewrite MS. reflexivity. }
    destruct (Nat.eqb (a_consumed a) 0).
    + destruct (_ && _); [|cbn; discriminate].
      destruct (FIN 0%Z _ _ _ _ G1 P1 RE1) as (m' & -> & L & A & B & C). cbn. split; auto. exists (List.length segs), R. split; auto. split; auto.
      left. exists segs, last. auto.
    + destruct (input_position (y_off y) lines (a_consumed a)) as [en|]; [|cbn; discriminate].
      rewrite AB. pose proof RE1 as (PV1 & k1 & SK1 & KS1 & KT1). rewrite SK1.
      set (sg := make_segment 0 _ _ _ _ _).
      destruct (msegment_ok top _ (s_nnodes sg) (s_directive sg) (s_eof sg) R m1 G1 RE1) as (r & m2 & E2 & RS2 & SK2 & RE2 & N2 & H2).
      replace (stack_top m1) with (k_trees k1) in E2 by (unfold stack_top; rewrite SK1; reflexivity). rewrite E2.
      destruct r as [s|].
      2:{ destruct H2 as (OF & G2 & SG2). assert (P2 : P (List.length segs) (m_own m2) R).
          { apply (ST _ (m_own m1)); auto. split; [|exact RS2]. congruence. }
          destruct (FIN (-1)%Z _ _ _ _ G2 P2 RE2) as (m' & -> & L & A & B & C). cbn. split; auto. exists (List.length segs), R. split; auto. }
      destruct H2 as (SN & g & SG2 & RC & G2).
      rewrite SK1 in SK2.
      replace (with_errs (with_stack m2 [mkmb (k_self k1) (k_seq k1) (k_kids k1) []]) []) with (passed m2) by (unfold passed; rewrite SK2; reflexivity).
      assert (REP : rests top 0 (passed m2)).
      { unfold passed. rewrite SK2. split; [apply RE2|]. eexists. split; [reflexivity|]. auto. }
      assert (OW : m_own (passed m2) = m_own m2) by (unfold passed; rewrite SK2; reflexivity).
      assert (NX : m_next (passed m2) = m_next m2) by (unfold passed; rewrite SK2; reflexivity).
      assert (EN2 : entered s g (m_own m1) (m_own (passed m2))) by (rewrite OW; split; auto).
      destruct (CB (List.length segs) s g R (passed m2) (m_own m1) G2 EN2 RC P1) as (err & m3 & E3 & AS & N3 & o & l & R3 & E4 & G4 & PP).
      rewrite E3, E4.
      assert (RE3 : rests top 0 (with_own m3 o)).
      { apply (rests_aside top 0 (passed m2)); auto. }
      assert (G5 : good (with_own m3 o) (owned (with_own m3 o) ++ R3)).
      { change (owned (with_own m3 o)) with (owned m3). rewrite (owned_aside _ _ AS). exact G4. }
      destruct PP as [(-> & P3)|(-> & OF & P3)].
      2:{ cbn [Z.ltb Z.compare]. destruct (FIN (-1)%Z _ _ _ _ G5 P3 RE3) as (m' & -> & L & A & B & C). cbn. split; auto. exists (List.length segs), R3. split; auto. }
      assert (CV : forall sg', counting value (segs ++ [sg']) = value (List.length segs)).
      { intros sg'. unfold counting. rewrite app_length. cbn [List.length]. f_equal. lia. }
      rewrite CV.
      assert (LEN : forall sg' : segment, S (List.length segs) = List.length (segs ++ [sg'])) by (intros; rewrite app_length; cbn [List.length]; lia).
      assert (DONE : forall z sg', ended P (PRet z (segs ++ [sg']) (Some en)) (done z (mcleanup (Some top) (with_own m3 o)))).
      { intros z sg'. destruct (FIN z _ _ _ _ G5 P3 RE3) as (m' & -> & L & A & B & C). cbn. split; auto. exists (S (List.length segs)), R3. split; auto. split; auto.
        left. eexists _, _. split; [reflexivity|]. apply LEN. }
      destruct (0 <? value (List.length segs))%Z; [apply DONE|]. destruct (value (List.length segs) <? 0)%Z; [apply DONE|].
      destruct (a_eof a || pf_single fl); [apply DONE|].
      rewrite (LEN (make_segment ordinal (mkrange (y_off y) en) (a_errs a) (b_kids b) (a_result a) (a_eof a))).
      apply IH with (R := R3); auto.
      * rewrite <- LEN. exact P3.
      * cbn. lia.
  - destruct MM as [MM HT]. rewrite (aborted top m1 (-1)%Z HT). cbn. destruct MM as [MM| ->]; auto.
  - cbn. auto.
  - destruct (parse_one cf la (start_rule fl) inp y) as [p lines a u| | | | |]; cbn; try discriminate. destruct (MM p lines a u eq_refl).
Qed.

(** ** The whole call *)
Lemma take_outer : forall m X, good m X ->
  match take sc SOuter m with
  | (Some a, m') => good m' (a :: X) /\ kept m m' /\ m_next m' = S (m_next m) /\ a = m_next m
  | (None, m') => ofail m' /\ kept m m' /\ good m' X
  end.
Proof.
  intros m X (H & B & G). unfold take, draw.
  assert (LG : forall o n, logged (mkmem o n (m_tick m) ((SOuter, m_next m) :: m_log m) (m_store m) (m_errs m) (m_stack m) (m_prev m))).
  { intros o n st j [[= <- <-]|I]; auto. }
  destruct (fails sc SOuter (m_next m)) eqn:F.
  - split; [exists (m_next m); cbn; auto|]. split; [kp|]. split; [exact H|]. split; [|apply LG]. cbn. intros a I. apply B in I. lia.
  - cbn [fst snd]. split; [|split; [kp|split; reflexivity]]. split; [|split; [|apply LG]]; cbn.
    + apply holds_alloc; auto. intros I. apply B in I. lia.
    + intros a [<-|I]; [|apply B in I]; lia.
Qed.

Definition blank (m : mem) : Prop := m_store m = (fun _ => None) /\ m_errs m = [] /\ m_stack m = [] /\ m_prev m = None.

Lemma blank_owned : forall m, blank m -> owned m = [].
Proof. intros m (A & B & C & D). unfold owned. rewrite A, B, C, D. reflexivity. Qed.

Lemma mcleanup_none : forall R m, good m (stores (m_store m) ++ errs_frees (m_errs m) ++ R) ->
  exists m', mcleanup None m = MOk tt m' /\ good m' R /\ same_maps (m_own m) (m_own m') /\ m_log m' = m_log m.
Proof.
  intros R m G. unfold mcleanup, free_top. cbn [mbind].
  assert (LG : forall l m m', mfree l m = MOk tt m' -> m_log m' = m_log m).
  { intros l m0 m' E. unfold mfree in E. destruct (free_all _ _); [|discriminate]. injection E as <-. reflexivity. }
  destruct (mfree_ok (errs_frees (m_errs m)) m (stores (m_store m) ++ R)) as (m3 & E3 & G3 & (A1 & A2 & A3 & A4 & A5) & _).
  { eapply good_perm; eauto. perm. }
  rewrite E3. cbn [mbind]. rewrite A1. fold (stores (m_store m)).
  destruct (mfree_ok (stores (m_store m)) m3 R G3) as (m4 & E4 & G4 & (B1 & B2 & B3 & B4 & B5) & _).
  exists m4. split; [exact E4|]. split; [exact G4|]. split; [unfold same_maps in *; intuition congruence|].
  rewrite (LG _ _ _ E4), (LG _ _ _ E3). reflexivity.
Qed.

Lemma vector_no_abort : forall m m', push_store sc VBlocks m <> MAbort m'.
Proof.
  intros m m' E. unfold push_store, push, grow, mfree in E. cbn [store_site] in E.
  destruct (match m_store m VBlocks with None => true | Some _ => grows sc (m_tick m) end); cbn [mbind] in E; [|discriminate E].
  destruct (take sc SVector (ticked m)) as [o m1]. destruct o as [a|]; cbn [mbind] in E; [|discriminate E].
  destruct (free_all _ _); cbn [mbind] in E; discriminate E.
Qed.

Lemma mparse_each_ok : forall value P cb, cb_ok value P cb -> (forall i o o' R, agree o o' -> P i o R -> P i o' R) ->
  forall cf la fl inp R m, blank m -> good m R -> P 0 (m_own m) R ->
  ended P (parse_each cf la (counting value) fl inp) (mparse_each sc cf la cb fl inp m).
Proof.
  intros value P cb CB ST cf la fl inp R m BL G HP. unfold mparse_each, parse_each.
  pose proof BL as (B1 & B2 & B3 & B4).
  pose proof (push_store_ok VLines m R) as SP. rewrite B1 in SP. specialize (SP G).
  destruct (push_store sc VLines m) as [[] m1|m1| |]; cbn in SP; try (cbn; tauto).
  destruct SP as ((G1 & E1 & E2 & E3 & E4 & E5) & _).
  rewrite B2 in E1. rewrite B3 in E2. rewrite B4 in E3.
  assert (P1 : P 0 (m_own m1) R). { apply (ST _ (m_own m)); auto. split; auto. }
  unfold mblock_start. pose proof (take_outer m1 _ G1) as TK. destruct (take sc SOuter m1) as [[a|] m2].
  - destruct TK as (G2 & (K1 & K2 & K3 & K4 & K5 & K6) & N2 & AE).
    pose proof (push_store_ok VBlocks m2 (a :: R)) as SP. rewrite K1 in SP.
    specialize (SP ltac:(eapply good_perm; eauto; perm)).
    destruct (push_store sc VBlocks m2) as [[] m3|m3| |] eqn:PS; cbn [mbind]; cbn in SP; try (cbn; tauto).
    2:{ destruct (vector_no_abort _ _ PS). }
    destruct SP as ((G3 & F1 & F2 & F3 & F4 & F5) & T3).
    set (m4 := with_stack m3 _).
    assert (LT : a < m_next m4).
    { apply (good_bound _ _ G3). rewrite in_app_iff. right. left. reflexivity. }
    apply (mloop_ok value P cb CB ST (S (List.length inp)) cf la fl inp (cf_ordinal cf) (carry0 cf) [] None a R m4); auto.
    + eapply good_own with (m := m3); auto. eapply good_perm; eauto. unfold owned, m4. cbn [m_store m_errs m_stack m_prev with_stack].
      rewrite F1, F2, F3, K2, K3, K4, E1, E2, E3. change (errs_frees []) with (@nil addr). cbn [flat_map closed]. perm.
    + apply (ST _ (m_own m1)); auto. cbn. split; congruence.
    + split; [cbn; congruence|]. eexists. split; [cbn; rewrite F2, K3, E2; reflexivity|]. auto.
  - destruct TK as (OF & (K1 & K2 & K3 & K4 & K5 & K6) & G2). cbn [mbind].
    destruct (mcleanup_none R m2) as (m3 & E & G3 & (A1 & A2) & L).
    { rewrite K1, K2, E1. exact G2. }
    rewrite E. cbn. split; [apply G3|]. exists 0, R. split; [|split; auto].
    + apply (ST _ (m_own m1)); auto. split; congruence.
    + right. split; auto. unfold ofail in *. rewrite L. exact OF.
Qed.

(** ** A callback that keeps segments *)
Definition seg_blocks (K : list (addr * segm)) : list addr := flat_map (fun p => seg_frees (fst p) (snd p)) K.

Definition Pkeep (keeps : nat -> bool) (i : nat) (o : own) (R : list addr) : Prop :=
  exists K, List.length K = List.length (filter keeps (seq 0 i)) /\ Permutation R (seg_blocks K) /\
    (forall s g, In (s, g) K -> o_segs o s = Some g /\ g_refcount g = 1%N) /\
    forall s g, o_segs o s = Some g -> In (s, g) K.

Lemma seg_self : forall s g, In s (seg_frees s g).
Proof. intros s g. unfold seg_frees. rewrite !in_app_iff. cbn. auto 6. Qed.

Lemma good_live : forall m L a, good m L -> In a L -> live (m_own m) a = true.
Proof. intros m L a ((_ & P) & _) I. apply live_in. apply (Permutation_in _ (Permutation_sym P)). exact I. Qed.

Lemma good_disj : forall m A B C a, good m (A ++ B ++ C) -> In a B -> In a C -> False.
Proof.
  intros m A B C a ((N & P) & _) I1 I2. assert (N2 : NoDup (A ++ B ++ C)) by (eapply Permutation_NoDup; eauto).
  assert (N3 : forall X Y : list addr, NoDup (X ++ Y) -> NoDup Y).
  { induction X; cbn; auto. intros Y H. inversion H; auto. }
  apply N3 in N2. clear - N2 I1 I2. induction B as [|b B IH]; [destruct I1|]. cbn in N2. inversion N2; subst.
  destruct I1 as [->|I1]; auto. apply H1. apply in_or_app. auto.
Qed.

Lemma flat_nodup : forall K, NoDup (seg_blocks K) -> NoDup (map fst K).
Proof.
  induction K as [|[s g] K IH]; cbn; intros N; constructor.
  - intros I. apply in_map_iff in I as ((s' & g') & E & I). cbn in E. subst s'.
    assert (J : In s (seg_blocks K)) by (apply in_flat_map; exists (s, g'); split; auto; apply seg_self).
    pose proof (seg_self s g) as J2. clear - N J J2. induction (seg_frees s g) as [|b B IHB]; [destruct J2|].
    cbn in N. inversion N; subst. destruct J2 as [->|J2]; auto. apply H1. apply in_or_app. auto.
  - apply IH. clear - N. induction (seg_frees s g) as [|b B IHB]; auto. cbn in N. inversion N; subst. auto.
Qed.

(** Exactly [s] and the segments of [K] are segments *)
Lemma alive_count : forall s g K m R, good m (owned m ++ seg_frees s g ++ R) -> Permutation R (seg_blocks K) ->
  (forall s' g', o_segs (m_own m) s' = Some g' <-> In (s', g') ((s, g) :: K)) ->
  segments_alive (m_own m) = S (List.length K).
Proof.
  intros s g K m R G PK HK. unfold segments_alive.
  assert (ND : NoDup (o_live (m_own m))) by apply G.
  assert (N2 : NoDup (seg_blocks ((s, g) :: K))).
  { cbn [seg_blocks flat_map fst snd]. destruct G as ((N & P) & _). pose proof (Permutation_NoDup P N) as N2.
    assert (N3 : forall X Y : list addr, NoDup (X ++ Y) -> NoDup Y).
    { induction X; cbn; auto. intros Y H. inversion H; auto. }
    apply N3 in N2. eapply Permutation_NoDup; [|exact N2]. apply Permutation_app_head. exact PK. }
  apply flat_nodup in N2.
  replace (S (List.length K)) with (List.length (map fst ((s, g) :: K))) by (rewrite map_length; reflexivity).
  apply Permutation_length. apply NoDup_Permutation; [apply NoDup_filter; exact ND|exact N2|].
  intros a. rewrite filter_In, in_map_iff. split.
  - intros [_ H]. destruct (o_segs (m_own m) a) as [g'|] eqn:E; [|discriminate]. apply HK in E. exists (a, g'). auto.
  - intros ((a' & g') & E & I). cbn in E. subst a'. pose proof (proj2 (HK _ _) I) as E. rewrite E. split; auto.
    destruct G as ((_ & P) & _). apply (Permutation_in _ (Permutation_sym P)). apply in_or_app. right.
    destruct I as [[= <- <-]|I].
    + apply in_or_app. left. apply seg_self.
    + apply in_or_app. right. apply (Permutation_in _ (Permutation_sym PK)). apply in_flat_map. exists (a, g'). split; auto. apply seg_self.
Qed.

Lemma keeping_ok : forall value keeps, cb_ok value (Pkeep keeps) (keeping value keeps).
Proof.
  intros value keeps i s g R m o0 G (SG & _) RC (K & LK & PK & HK & KH). unfold keeping.
  assert (LV : live (m_own m) s = true).
  { eapply good_live; eauto. rewrite !in_app_iff. pose proof (seg_self s g). tauto. }
  assert (GS : get_seg (m_own m) s = Some g) by (unfold get_seg; rewrite LV, SG; unfold AnnotModel.upd; rewrite Nat.eqb_refl; reflexivity).
  assert (SQ : filter keeps (seq 0 (S i)) = filter keeps (seq 0 i) ++ (if keeps i then [i] else [])).
  { rewrite seq_S, filter_app. cbn. destruct (keeps i); reflexivity. }
  assert (NK : forall s' g', In (s', g') K -> s' <> s).
  { intros s' g' I ->. apply (good_disj m _ _ _ s G); [apply seg_self|]. apply (Permutation_in _ (Permutation_sym PK)).
    unfold seg_blocks. apply in_flat_map. exists (s, g'). split; auto. apply seg_self. }
  destruct (keeps i) eqn:KI.
  - unfold seg_retain. rewrite GS. cbn [obind]. rewrite RC. change (0 <? 1)%N with true. cbv iota. eexists _, _. split; [reflexivity|].
    split; [repeat split; auto|]. split; [auto|].
    set (g2 := with_refcount g _). unfold seg_release. cbn [m_own with_own].
    assert (GS2 : get_seg (set_seg (m_own m) s (Some g2)) s = Some g2).
    { unfold get_seg, live. cbn. unfold live in LV. rewrite LV. unfold AnnotModel.upd. rewrite Nat.eqb_refl. reflexivity. }
    rewrite GS2. cbn [obind]. change (g_refcount g2) with 2%N. change (0 <? 2)%N with true. change (0 <? 2 - 1)%N with true. cbn [negb].
    eexists _, _, (seg_frees s g ++ R). split; [reflexivity|]. split; [|left; split; auto].
    + destruct G as (A & B & C). split; [exact A|]. split; auto.
    + assert (WR : with_refcount g2 (2 - 1) = g). { destruct g. cbn in *. subst. reflexivity. }
      exists ((s, g) :: K). split; [|split; [|split]].
      * rewrite SQ, app_length, <- LK. cbn. lia.
      * cbn [seg_blocks flat_map fst snd]. apply Permutation_app_head. exact PK.
      * cbn [o_segs set_seg]. rewrite SG. unfold AnnotModel.upd. intros s' g' [[= <- <-]|I].
        -- rewrite Nat.eqb_refl. rewrite WR. auto.
        -- specialize (NK _ _ I). destruct (Nat.eqb_spec s s'); [congruence|]. apply HK. exact I.
      * cbn [o_segs set_seg]. rewrite SG. unfold AnnotModel.upd. intros s' g'. destruct (Nat.eqb_spec s s') as [<-|D].
        -- rewrite WR. intros [= <-]. left. reflexivity.
        -- intros I. right. auto.
  - rewrite GS. eexists _, _. split; [reflexivity|]. split; [repeat split; auto|]. split; auto.
    unfold seg_release. rewrite GS. cbn [obind]. rewrite RC. change (0 <? 1)%N with true. change (0 <? 1 - 1)%N with false. cbn [negb].
    destruct (free_all_holds (seg_frees s g) (m_own m) (owned m ++ R)) as (o & E & H & S1 & S2).
    { destruct G as (H & _). eapply holds_perm; [exact H|]. perm. }
    rewrite E. eexists _, _, R. split; [reflexivity|]. split; [|left; split; auto].
    + split; [exact H|]. split; [|apply G]. intros a I. apply G. rewrite !in_app_iff in *. tauto.
    + exists K. split; [rewrite SQ, app_nil_r; exact LK|]. split; [exact PK|]. cbn. rewrite S1, SG. unfold AnnotModel.upd. split; intros s' g' I.
      * specialize (NK _ _ I). destruct (Nat.eqb_spec s s'); [congruence|]. apply HK. exact I.
      * destruct (Nat.eqb_spec s s'); [discriminate|]. auto.
Qed.

Lemma watching_ok : forall value keeps, cb_ok value (Pkeep keeps) (watching value keeps).
Proof.
  intros value keeps i s g R m o0 G EN RC PK. destruct (keeping_ok value keeps i s g R m o0 G EN RC PK) as (err & m' & E & H).
  exists err, m'. split; [|exact H]. unfold watching.
  destruct EN as (SG & _). destruct PK as (K & LK & PK & HK & KH).
  assert (LV : live (m_own m) s = true).
  { eapply good_live; eauto. rewrite !in_app_iff. pose proof (seg_self s g). tauto. }
  assert (GS : get_seg (m_own m) s = Some g) by (unfold get_seg; rewrite LV, SG; unfold AnnotModel.upd; rewrite Nat.eqb_refl; reflexivity).
  rewrite GS, RC.
  rewrite (alive_count s g K m R G PK), LK.
  - change (1 =? 1)%N with true. unfold kept_of. rewrite Nat.eqb_refl. exact E.
  - assert (NK : forall s' g', In (s', g') K -> s' <> s).
    { intros s' g' I ->. apply (good_disj m _ _ _ s G); [apply seg_self|]. apply (Permutation_in _ (Permutation_sym PK)).
      unfold seg_blocks. apply in_flat_map. exists (s, g'). split; auto. apply seg_self. }
    intros s' g'. rewrite SG. unfold AnnotModel.upd. destruct (Nat.eqb_spec s s') as [<-|D]; split.
    + intros [= <-]. left. reflexivity.
    + intros [[= <-]|I]; auto. destruct (NK _ _ I eq_refl).
    + intros I. right. auto.
    + intros [[= X _]|I]; [congruence|]. apply HK. exact I.
Qed.

Lemma keep_agree : forall keeps i o o' R, agree o o' -> Pkeep keeps i o R -> Pkeep keeps i o' R.
Proof. intros keeps i o o' R [A B] (K & LK & PK & HK). exists K. rewrite A. auto. Qed.

(** ** The callback of cypher_parse *)
Definition merge1 (r s : addr) (m1 : option addr) (o : own) (x : resl) (g : segm) : option (own * resl * segm * bool) :=
  match g_errs g, m1 with
  | [], _ => Some (o, x, g, true)
  | _ :: _, None => Some (o, x, g, false)
  | _ :: _, Some a =>
      do o <- realloc_to (r_errors x) a o;
      let x := mkresl (Some a) (r_errs x ++ g_errs g) (r_roots x) (r_trees x) (r_nnodes x) (r_directives x) (r_dirs x) (r_dircap x) (r_eof x) in
      let g := mksegm (g_refcount g) (g_errors g) [] (g_roots g) (g_trees g) (g_nnodes g) (OwnModel.g_directive g) (g_eof g) in
      Some (set_seg (set_res o r (Some x)) s (Some g), x, g, true)
  end.

Definition merge2 (r s : addr) (m2 : option addr) (o : own) (x : resl) (g : segm) : option (own * resl * segm * bool) :=
  match g_trees g, m2 with
  | [], _ => Some (o, x, g, true)
  | _ :: _, None => Some (o, x, g, false)
  | _ :: _, Some a =>
      do o <- realloc_to (r_roots x) a o;
      let x := mkresl (r_errors x) (r_errs x) (Some a) (r_trees x ++ g_trees g) (r_nnodes x) (r_directives x) (r_dirs x) (r_dircap x) (r_eof x) in
      let g := mksegm (g_refcount g) (g_errors g) (g_errs g) (g_roots g) [] (g_nnodes g) (OwnModel.g_directive g) (g_eof g) in
      Some (set_seg (set_res o r (Some x)) s (Some g), x, g, true)
  end.

Definition merge3 (r s : addr) (m3 : option addr) (o : own) (x : resl) (g : segm) : option (own * bool) :=
  match OwnModel.g_directive g with
  | None => Some (o, true)
  | Some d =>
      if negb (List.length (r_dirs x) <=? r_dircap x) then None else
      do (o, x, ok) <-
        (if r_dircap x <=? List.length (r_dirs x) then
           match m3 with
           | None => Some (o, x, false)
           | Some a =>
               do o <- realloc_to (r_directives x) a o;
               let x := mkresl (r_errors x) (r_errs x) (r_roots x) (r_trees x) (r_nnodes x) (Some a) (r_dirs x)
                          (if r_dircap x =? 0 then 8 else r_dircap x * 2) (r_eof x) in
               Some (set_res o r (Some x), x, true)
           end
         else Some (o, x, true));
      if negb ok then Some (o, false) else
      let x := mkresl (r_errors x) (r_errs x) (r_roots x) (r_trees x) (r_nnodes x) (r_directives x) (r_dirs x ++ [d]) (r_dircap x) (r_eof x) in
      let g := mksegm (g_refcount g) (g_errors g) (g_errs g) (g_roots g) (g_trees g) (g_nnodes g) None (g_eof g) in
      Some (set_seg (set_res o r (Some x)) s (Some g), true)
  end.

Definition merge_eof (x : resl) (g : segm) : resl :=
  mkresl (r_errors x) (r_errs x) (r_roots x) (r_trees x) (r_nnodes x) (r_directives x) (r_dirs x) (r_dircap x)
    (if negb (r_eof x) && g_eof g && (match OwnModel.g_directive g with Some _ => true | None => false end || (0 <? List.length (g_errs g)))
     then true else r_eof x).

Definition merge_nodes (x : resl) (g : segm) : resl :=
  mkresl (r_errors x) (r_errs x) (r_roots x) (r_trees x) (r_nnodes x + g_nnodes g) (r_directives x) (r_dirs x) (r_dircap x) (r_eof x).

Lemma res_merge_eq : forall r s m1 m2 m3 o, res_merge r s m1 m2 m3 o =
  do g <- get_seg o s;
  do x <- get_res o r;
  do (o, x, g, ok) <- merge1 r s m1 (set_res o r (Some (merge_eof x g))) (merge_eof x g) g;
  if negb ok then Some (o, false) else
  do (o, x, g, ok) <- merge2 r s m2 o x g;
  if negb ok then Some (o, false) else
  merge3 r s m3 (set_res o r (Some (merge_nodes x g))) (merge_nodes x g) g.
Proof. reflexivity. Qed.

(** the segment [s] and the result [r] *)
Definition both (r s : addr) (n : nat) (X : list addr) (o : own) (x : resl) (g : segm) : Prop :=
  o_segs o s = Some g /\ o_ress o r = Some x /\ g_refcount g = 1%N /\ List.length (r_dirs x) <= r_dircap x /\
  holds o (seg_frees s g ++ res_frees r x ++ X) /\ below n (seg_frees s g ++ res_frees r x ++ X).

Lemma realloc_to_ok : forall p n a o Y, holds o (blk p ++ Y) -> below n (blk p ++ Y) -> n <= a ->
  exists o', realloc_to p a o = Some o' /\ holds o' (a :: Y) /\ below (S a) (a :: Y) /\ same_maps o o'.
Proof.
  intros p n a o Y H B LE. unfold realloc_to. destruct (free_all_holds _ _ _ H) as (o1 & E & H1 & S1). rewrite E. cbn [obind].
  destruct (alloc_below o1 Y n a H1) as [A C]; auto. { intros z I. apply B. apply in_or_app. auto. }
  exists (alloc a o1). auto.
Qed.

Lemma upd_same : forall X (f : addr -> option X) a v, AnnotModel.upd f a v a = v.
Proof. intros. unfold AnnotModel.upd. rewrite Nat.eqb_refl. reflexivity. Qed.

Lemma merge1_ok : forall r s n f X o x g, both r s n X o x g ->
  exists o' x' g' ok, merge1 r s (drawn f n) o x g = Some (o', x', g', ok) /\ both r s (S n) X o' x' g' /\ (ok = false -> f = true).
Proof.
  intros r s n f X o x g (A & B & C & D & H & L). unfold merge1.
  assert (SAME : both r s (S n) X o x g) by (repeat split; auto; try apply H; eapply below_le; eauto).
  destruct (g_errs g) as [|e es] eqn:GE; [exists o, x, g, true; split; auto; split; auto; discriminate|].
  destruct f; cbn [drawn]; [exists o, x, g, false; auto|].
  destruct (realloc_to_ok (r_errors x) n n o (seg_frees s g ++ (errs_frees (r_errs x) ++ flat_map tree_frees (r_trees x) ++ blk (r_roots x) ++ blk (r_directives x) ++ [r]) ++ X))
    as (o1 & E & H1 & B1 & S1 & S2); auto.
  { eapply holds_perm; [exact H|]. unfold res_frees. perm. }
  { eapply below_perm; [exact L|]. unfold res_frees. perm. }
  rewrite E. cbn [obind]. eexists _, _, _, true. split; [reflexivity|]. split; [|discriminate].
  assert (PP : Permutation (n :: seg_frees s g ++ (errs_frees (r_errs x) ++ flat_map tree_frees (r_trees x) ++ blk (r_roots x) ++ blk (r_directives x) ++ [r]) ++ X)
    (seg_frees s (mksegm (g_refcount g) (g_errors g) [] (g_roots g) (g_trees g) (g_nnodes g) (OwnModel.g_directive g) (g_eof g)) ++
     res_frees r (mkresl (Some n) (r_errs x ++ e :: es) (r_roots x) (r_trees x) (r_nnodes x) (r_directives x) (r_dirs x) (r_dircap x) (r_eof x)) ++ X)).
  { unfold seg_frees, res_frees. cbn [g_errs g_errors g_trees g_roots r_errs r_errors r_trees r_roots r_directives]. rewrite GE. unfold errs_frees. rewrite flat_map_app. cbn [flat_map]. perm. }
  repeat split; cbn [o_segs o_ress set_seg set_res o_live]; auto using upd_same.
  - apply H1.
  - eapply Permutation_trans; [apply H1|exact PP].
  - eapply below_perm; [exact B1|exact PP].
Qed.

Lemma merge2_ok : forall r s n f X o x g, both r s n X o x g ->
  exists o' x' g' ok, merge2 r s (drawn f n) o x g = Some (o', x', g', ok) /\ both r s (S n) X o' x' g' /\ (ok = false -> f = true).
Proof.
  intros r s n f X o x g (A & B & C & D & H & L). unfold merge2.
  assert (SAME : both r s (S n) X o x g) by (repeat split; auto; try apply H; eapply below_le; eauto).
  destruct (g_trees g) as [|e es] eqn:GE; [exists o, x, g, true; split; auto; split; auto; discriminate|].
  destruct f; cbn [drawn]; [exists o, x, g, false; auto|].
  destruct (realloc_to_ok (r_roots x) n n o (seg_frees s g ++ (errs_frees (r_errs x) ++ blk (r_errors x) ++ flat_map tree_frees (r_trees x) ++ blk (r_directives x) ++ [r]) ++ X))
    as (o1 & E & H1 & B1 & S1 & S2); auto.
  { eapply holds_perm; [exact H|]. unfold res_frees. perm. }
  { eapply below_perm; [exact L|]. unfold res_frees. perm. }
  rewrite E. cbn [obind]. eexists _, _, _, true. split; [reflexivity|]. split; [|discriminate].
  assert (PP : Permutation (n :: seg_frees s g ++ (errs_frees (r_errs x) ++ blk (r_errors x) ++ flat_map tree_frees (r_trees x) ++ blk (r_directives x) ++ [r]) ++ X)
    (seg_frees s (mksegm (g_refcount g) (g_errors g) (g_errs g) (g_roots g) [] (g_nnodes g) (OwnModel.g_directive g) (g_eof g)) ++
     res_frees r (mkresl (r_errors x) (r_errs x) (Some n) (r_trees x ++ e :: es) (r_nnodes x) (r_directives x) (r_dirs x) (r_dircap x) (r_eof x)) ++ X)).
  { unfold seg_frees, res_frees. cbn [g_errs g_errors g_trees g_roots r_errs r_errors r_trees r_roots r_directives]. rewrite GE. rewrite flat_map_app. cbn [flat_map]. perm. }
  repeat split; cbn [o_segs o_ress set_seg set_res o_live]; auto using upd_same.
  - apply H1.
  - eapply Permutation_trans; [apply H1|exact PP].
  - eapply below_perm; [exact B1|exact PP].
Qed.

Lemma merge3_ok : forall r s n f X o x g, both r s n X o x g ->
  exists o' x' g' ok, merge3 r s (drawn f n) o x g = Some (o', ok) /\ both r s (S n) X o' x' g' /\ (ok = false -> f = true).
Proof.
  intros r s n f X o x g (A & B & C & D & H & L). unfold merge3.
  assert (SAME : both r s (S n) X o x g) by (repeat split; auto; try apply H; eapply below_le; eauto).
  destruct (OwnModel.g_directive g) as [d|] eqn:GD; [|exists o, x, g, true; split; auto; split; auto; discriminate].
  destruct (Nat.leb_spec (List.length (r_dirs x)) (r_dircap x)) as [_|Q]; [|lia]. cbn [negb].
  assert (FIN : forall o1 x1 da cap, o_segs o1 = o_segs o ->
     x1 = mkresl (r_errors x) (r_errs x) (r_roots x) (r_trees x) (r_nnodes x) da (r_dirs x) cap (r_eof x) -> List.length (r_dirs x) < cap ->
     holds o1 (seg_frees s g ++ res_frees r x1 ++ X) -> below (S n) (seg_frees s g ++ res_frees r x1 ++ X) ->
     exists o' x' g' ok,
       Some (set_seg (set_res o1 r (Some (mkresl (r_errors x1) (r_errs x1) (r_roots x1) (r_trees x1) (r_nnodes x1) (r_directives x1) (r_dirs x1 ++ [d]) (r_dircap x1) (r_eof x1)))) s
         (Some (mksegm (g_refcount g) (g_errors g) (g_errs g) (g_roots g) (g_trees g) (g_nnodes g) None (g_eof g))), true) = Some (o', ok) /\
       both r s (S n) X o' x' g' /\ (ok = false -> f = true)).
  { intros o1 x1 da cap S1 -> LC H1 B1. eexists _, _, _, true. split; [reflexivity|]. split; [|discriminate].
    split; [apply upd_same|]. split; [apply upd_same|]. split; [exact C|]. split; [|split; [exact H1|exact B1]].
    cbn [r_dirs r_dircap]. rewrite app_length. cbn. lia. }
  destruct (Nat.leb_spec (r_dircap x) (List.length (r_dirs x))) as [Q|Q].
  - destruct f; cbn [drawn obind negb]; [exists o, x, g, false; auto|].
    destruct (realloc_to_ok (r_directives x) n n o (seg_frees s g ++ (errs_frees (r_errs x) ++ blk (r_errors x) ++ flat_map tree_frees (r_trees x) ++ blk (r_roots x) ++ [r]) ++ X))
      as (o1 & E & H1 & B1 & S1 & S2); auto.
    { eapply holds_perm; [exact H|]. unfold res_frees. perm. }
    { eapply below_perm; [exact L|]. unfold res_frees. perm. }
    rewrite E. cbn [obind negb].
    assert (PP : Permutation (n :: seg_frees s g ++ (errs_frees (r_errs x) ++ blk (r_errors x) ++ flat_map tree_frees (r_trees x) ++ blk (r_roots x) ++ [r]) ++ X)
      (seg_frees s g ++ res_frees r (mkresl (r_errors x) (r_errs x) (r_roots x) (r_trees x) (r_nnodes x) (Some n) (r_dirs x)
         (if r_dircap x =? 0 then 8 else r_dircap x * 2) (r_eof x)) ++ X)).
    { unfold res_frees. cbn [r_errs r_errors r_trees r_roots r_directives]. perm. }
    apply (FIN _ _ (Some n) (if r_dircap x =? 0 then 8 else r_dircap x * 2)); auto.
    + destruct (Nat.eqb_spec (r_dircap x) 0); lia.
    + eapply holds_perm; [exact H1|exact PP].
    + eapply below_perm; [exact B1|exact PP].
  - cbn [obind negb]. apply (FIN o x (r_directives x) (r_dircap x)); auto.
    + destruct x; reflexivity.
    + apply SAME.
Qed.

Lemma both_eq : forall r s n X o x x' g, both r s n X o x g -> res_frees r x' = res_frees r x -> r_dirs x' = r_dirs x -> r_dircap x' = r_dircap x ->
  both r s n X (set_res o r (Some x')) x' g.
Proof.
  intros r s n X o x x' g (A & B & C & D & H & L) E1 E2 E3. unfold both. rewrite E1, E2, E3.
  repeat split; cbn; auto using upd_same; apply H.
Qed.

Lemma res_merge_ok : forall r s n f1 f2 f3 X o x g, both r s n X o x g ->
  exists o' x' g' ok, res_merge r s (drawn f1 n) (drawn f2 (1 + n)) (drawn f3 (2 + n)) o = Some (o', ok) /\ both r s (3 + n) X o' x' g' /\
    (ok = false -> f1 || f2 || f3 = true).
Proof.
  intros r s n f1 f2 f3 X o x g B. rewrite res_merge_eq. pose proof B as (SG & RX & _ & _ & (_ & P) & _).
  assert (L1 : live o s = true) by (apply live_in, (Permutation_in _ (Permutation_sym P)); rewrite !in_app_iff; pose proof (seg_self s g); tauto).
  assert (L2 : live o r = true) by (apply live_in, (Permutation_in _ (Permutation_sym P)); unfold res_frees; rewrite !in_app_iff; cbn; tauto).
  unfold get_seg at 1, get_res at 1. rewrite L1, L2, SG, RX. cbn [obind].
  destruct (merge1_ok r s n f1 X (set_res o r (Some (merge_eof x g))) (merge_eof x g) g) as (o1 & x1 & g1 & ok1 & E1 & B1 & F1).
  { apply (both_eq r s n X o x); auto. }
  rewrite E1. cbn [obind]. destruct ok1; cbn [negb].
  2:{ exists o1, x1, g1, false. split; auto. split; [|rewrite F1; auto]. destruct B1 as (b1 & b2 & b3 & b4 & b5 & b6). repeat split; auto; try apply b5. eapply below_le; [exact b6|lia]. }
  destruct (merge2_ok r s (S n) f2 X o1 x1 g1 B1) as (o2 & x2 & g2 & ok2 & E2 & B2 & F2).
  cbn [Nat.add]. rewrite E2. cbn [obind]. destruct ok2; cbn [negb].
  2:{ exists o2, x2, g2, false. split; auto. split; [|rewrite F2, orb_true_r; auto]. destruct B2 as (b1 & b2 & b3 & b4 & b5 & b6). repeat split; auto; try apply b5. eapply below_le; [exact b6|lia]. }
  destruct (merge3_ok r s (S (S n)) f3 X (set_res o2 r (Some (merge_nodes x2 g2))) (merge_nodes x2 g2) g2) as (o3 & x3 & g3 & ok3 & E3 & B3 & F3).
  { apply (both_eq r s _ X o2 x2); auto. }
  rewrite E3. exists o3, x3, g3, ok3. split; auto. split; auto. intros H. rewrite F3, orb_true_r; auto.
Qed.

Definition Pres (r : addr) (i : nat) (o : own) (R : list addr) : Prop :=
  exists x, o_ress o r = Some x /\ List.length (r_dirs x) <= r_dircap x /\ Permutation R (res_frees r x).

Lemma merging_ok : forall r, cb_ok (fun _ => 0%Z) (Pres r) (merging sc r).
Proof.
  intros r i s g R m o0 G (SG0 & SR) RC (x & RX & DC & PR). rewrite <- SR in RX.
  assert (SG : o_segs (m_own m) s = Some g) by (rewrite SG0; apply upd_same).
  unfold merging, draw. cbn [m_next m_own].
  set (n := m_next m).
  destruct (res_merge_ok r s n (fails sc SOuter n) (fails sc SOuter (1 + n)) (fails sc SOuter (2 + n)) (owned m) (m_own m) x g) as (o1 & x1 & g1 & ok & E & B & F).
  { split; auto. split; auto. split; auto. split; auto.
    assert (PP : Permutation (owned m ++ seg_frees s g ++ R) (seg_frees s g ++ res_frees r x ++ owned m)).
    { eapply Permutation_trans; [apply Permutation_app_comm|]. rewrite <- app_assoc. apply Permutation_app_head. apply Permutation_app_tail. exact PR. }
    split; [eapply holds_perm; [apply G|exact PP]|eapply below_perm; [apply (good_bound _ _ G)|exact PP]]. }
  unfold drawn in E. cbn [Nat.add] in E. fold n.
  replace (res_merge _ _ _ _ _ _) with (Some (o1, ok)) by (symmetry; exact E).
  eexists _, _. split; [reflexivity|]. split; [repeat split; auto|]. split; [cbn; lia|]. cbn [m_own with_own].
  destruct B as (SG1 & RX1 & RC1 & DC1 & H1 & B1).
  destruct (free_all_holds (seg_frees s g1) o1 (res_frees r x1 ++ owned m) H1) as (o2 & E2 & H2 & S1 & S2).
  exists (set_seg o2 s None), (seg_frees s g1), (res_frees r x1).
  assert (LG : forall m', m_log m' = (SOuter, S (S n)) :: (SOuter, S n) :: (SOuter, n) :: m_log m -> logged m').
  { intros m' EL st j I. rewrite EL in I. destruct I as [[= <- <-]|[[= <- <-]|[[= <- <-]|I]]]; auto. apply G. exact I. }
  assert (PN : forall j, Pres r j (set_seg o2 s None) (res_frees r x1)).
  { intros j. exists x1. cbn. rewrite S2. auto. }
  split; [|split].
  - unfold seg_release, get_seg.
    assert (L1 : live o1 s = true) by (apply live_in; destruct H1 as [_ P1]; apply (Permutation_in _ (Permutation_sym P1)); rewrite !in_app_iff; pose proof (seg_self s g1); tauto).
    rewrite L1, SG1. cbn [obind]. rewrite RC1. change (0 <? 1)%N with true. change (0 <? 1 - 1)%N with false. cbn [negb]. rewrite E2. reflexivity.
  - split; [|split].
    + cbn. eapply holds_perm; [exact H2|]. apply Permutation_app_comm.
    + cbn. assert (B2 : below (3 + n) (res_frees r x1 ++ owned m)) by (intros a I; apply B1; apply in_or_app; auto).
      eapply below_perm; [exact B2|apply Permutation_app_comm].
    + apply LG. reflexivity.
  - destruct ok; [left; auto|right]. split; auto. split; auto. unfold ofail. cbn [m_log with_own].
    specialize (F eq_refl). destruct (fails sc SOuter n) eqn:Q1; [exists n; cbn; auto|].
    destruct (fails sc SOuter (1 + n)) eqn:Q2; [exists (S n); cbn; auto|]. cbn in F. exists (S (S n)). split; [left; reflexivity|exact F].
Qed.

Lemma res_agree : forall r i o o' R, agree o o' -> Pres r i o R -> Pres r i o' R.
Proof. intros r i o o' R [A B] (x & RX & DC & PR). exists x. rewrite B. auto. Qed.
End Sched.
