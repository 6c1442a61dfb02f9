(** * Ranges of the nodes that the actions build *)
From Coq Require Import List Bool Arith Lia Sorted.
From Verif Require Import Peg PegProofs QuickModel QuickSpec CypherSyntax ErrModel AstTypes AstModel
  CypherBuild CypherExec CypherParse CypherRound CypherSpec CypherInv.
Import ListNotations.

Section Ranges.
Variable e : xenv.
Variable ps : nat -> position.           (* the position of byte number p of this round *)
Hypothesis ps_ok : forall p, p <= e_pos e -> x_position e p = XOk (ps p).
Hypothesis ps_off : forall p, offset (ps p) = p + offset (e_off e).

(** what is shown for every node *)
Definition node_ok (n : node) : Prop :=
  nested n /\ exists b f, b <= f /\ f <= e_pos e /\ r_start (nrng n) = ps b /\ r_end (nrng n) = ps f.

Definition tree_ok (n : node) : Prop := Forall node_ok (preorder n).

Notation ends ks := (map (fun k => offset (r_end (nrng k))) ks).

(** children [ks] built so far between the offsets [lo] and [hi] *)
Definition kids_ok (lo hi : nat) (ks : list node) : Prop :=
  Forall tree_ok ks /\
  Forall (fun k => lo <= offset (r_start (nrng k)) /\ offset (r_end (nrng k)) <= hi) ks /\
  StronglySorted le (ends ks).

(** a block that starts at byte [b]; the top block starts before the round *)
Definition start_ok (k : block) (b : nat) : Prop :=
  if b_top k then b = 0 else b_rstart k = ps b.

(** the open blocks at the time of a thunk at byte [c], innermost first *)
Fixpoint stack_ok (c : nat) (bs : list block) : Prop :=
  match bs with
  | [] => True
  | k :: bs => exists b, start_ok k b /\ b <= c /\
      kids_ok (b + offset (e_off e)) (c + offset (e_off e)) (b_kids k) /\ stack_ok b bs
  end.

Definition prev_ok (c : nat) (pv : option block) (bs : list block) : Prop :=
  match pv with
  | None => True
  | Some k =>
      exists b f, b_rstart k = ps b /\ b_rend k = ps f /\ b <= f /\ f <= c /\
        kids_ok (b + offset (e_off e)) (f + offset (e_off e)) (b_kids k) /\
        match bs with
        | [] => True
        | q :: _ => (exists b', start_ok q b' /\ b' <= b) /\
            Forall (fun n => offset (r_end (nrng n)) <= f + offset (e_off e)) (b_kids q)
        end
  end.

Definition tops (bs : list block) : nat := List.length (filter b_top bs).

(** Should the top block be closed, parse_one rejects the outcome anyway. *)
Definition inv (c : nat) (a : astate) : Prop :=
  tops (a_blocks a) <= 1 /\
  (tops (a_blocks a) = 1 ->
   c <= e_pos e /\ stack_ok c (a_blocks a) /\ prev_ok c (a_prev a) (a_blocks a)).

Lemma ps_inj : forall a b, ps a = ps b -> a = b.
Proof. intros a b H. assert (offset (ps a) = offset (ps b)) by congruence. rewrite !ps_off in H0. lia. Qed.

Lemma start_fun : forall k b b', start_ok k b -> start_ok k b' -> b = b'.
Proof.
  intros k b b'. unfold start_ok. destruct (b_top k); [congruence|].
  intros H1 H2. apply ps_inj. congruence.
Qed.

Lemma kids_up : forall lo hi hi' ks, hi <= hi' -> kids_ok lo hi ks -> kids_ok lo hi' ks.
Proof.
  intros lo hi hi' ks H [H1 [H2 H3]]. split; [auto|split; [|auto]].
  eapply Forall_impl; [|exact H2]. cbn. intros; lia.
Qed.

Lemma kids_nil : forall lo hi, kids_ok lo hi [].
Proof. intros. repeat split; constructor. Qed.

Lemma ssorted_app : forall l1 l2, StronglySorted le l1 -> StronglySorted le l2 ->
  (forall x y, In x l1 -> In y l2 -> x <= y) -> StronglySorted le (l1 ++ l2).
Proof.
  induction l1 as [|a l1 IH]; intros l2 H1 H2 H; cbn; [auto|].
  inversion H1; subst. constructor.
  - apply IH; auto. intros. apply H; [right|]; auto.
  - apply Forall_app. split; [auto|]. apply Forall_forall. intros y Hy. apply H; [left; auto|auto].
Qed.

Lemma kids_app : forall lo m m' hi ks1 ks2, lo <= m' -> m <= hi -> kids_ok lo m ks1 -> kids_ok m' hi ks2 ->
  (forall k, In k ks2 -> m <= offset (r_end (nrng k))) ->
  kids_ok lo hi (ks1 ++ ks2).
Proof.
  intros lo m m' hi ks1 ks2 L1 L2 [A1 [A2 A3]] [B1 [B2 B3]] Hm. split; [|split].
  - apply Forall_app. auto.
  - apply Forall_app. split.
    + eapply Forall_impl; [|exact A2]. cbn. intros; lia.
    + eapply Forall_impl; [|exact B2]. cbn. intros; lia.
  - rewrite map_app. apply ssorted_app; auto.
    intros x y Hx Hy. apply in_map_iff in Hx. destruct Hx as [k1 [<- Hk1]].
    apply in_map_iff in Hy. destruct Hy as [k2 [<- Hk2]].
    rewrite Forall_forall in A2. specialize (A2 _ Hk1). cbn in A2. specialize (Hm _ Hk2). lia.
Qed.

Lemma stack_up : forall c c' bs, c <= c' -> stack_ok c bs -> stack_ok c' bs.
Proof.
  intros c c' [|k bs] H; cbn; [auto|]. intros [b [H1 [H2 [H3 H4]]]]. exists b.
  split; [auto|]. split; [lia|]. split; [|auto]. eapply kids_up; [|exact H3]. lia.
Qed.

Lemma inv_up : forall c c' a, c <= c' -> c' <= e_pos e -> inv c a -> inv c' a.
Proof.
  intros c c' a H1 H2 [I1 I2]. split; [auto|]. intros Ht. destruct (I2 Ht) as [P1 [P2 P3]].
  split; [auto|]. split; [eapply stack_up; eauto|].
  destruct (a_prev a) as [k|]; [|exact I]. cbn in *. destruct P3 as [b [f [Q1 [Q2 [Q3 [Q4 Q5]]]]]].
  exists b, f. repeat (split; [auto; lia|]). exact Q5.
Qed.

Lemma tree_end : forall n, tree_ok n -> offset (r_start (nrng n)) <= offset (r_end (nrng n)).
Proof.
  intros [i t r f ks o] H. unfold tree_ok in H. cbn [preorder] in H. inversion H; subst.
  destruct H2 as [[H2 _] _]. exact H2.
Qed.

Lemma close_inv : forall p a b ps' a', p <= e_pos e -> inv p a -> close_block e p a = XOk (b, ps', a') ->
  inv p a' /\ a_prev a' = Some b /\
  (tops (a_blocks a') = 1 -> b_top b = false /\
     exists b0, b_rstart b = ps b0 /\ b0 <= p /\ b_rend b = ps p /\ stack_ok b0 (a_blocks a') /\
       kids_ok (b0 + offset (e_off e)) (p + offset (e_off e)) (b_kids b)).
Proof.
  intros p a b ps' a' Hp [I1 I2] H. unfold close_block in H. rewrite (ps_ok p Hp) in H. cbn [xbind] in H.
  destruct (a_blocks a) as [|k bs] eqn:Eb; [discriminate|].
  destruct (_ && _ && _) in H; [|discriminate]. injection H as <- <- <-.
  cbn [a_blocks set_prev set_blocks a_prev].
  assert (Main : tops bs = 1 -> b_top k = false /\ exists b0, b_rstart k = ps b0 /\ b0 <= p /\
     stack_ok b0 bs /\ kids_ok (b0 + offset (e_off e)) (p + offset (e_off e)) (b_kids k)).
  { intros Ht. unfold tops in I1, I2, Ht. cbn [filter] in I1, I2.
    destruct (b_top k) eqn:Ek; cbn [List.length] in I1, I2; [exfalso; lia|].
    destruct (I2 Ht) as [J1 [J2 J3]]. cbn [stack_ok] in J2.
    destruct J2 as [b0 [K1 [K2 [K3 K4]]]]. unfold start_ok in K1. rewrite Ek in K1.
    split; [reflexivity|]. exists b0. auto. }
  assert (tops bs <= 1) as T1.
  { unfold tops in *. cbn [filter] in I1. destruct (b_top k); cbn in I1; lia. }
  split; [split; [exact T1|]|split; [reflexivity|]].
  - intros Ht. destruct (Main Ht) as [M1 [b0 [M2 [M3 [M4 M5]]]]].
    split; [auto|]. split; [eapply stack_up; [|exact M4]; lia|].
    cbn [a_prev set_prev set_blocks a_blocks prev_ok].
    exists b0, p. cbn [b_rstart b_rend b_kids]. do 5 (split; [auto|]).
    destruct bs as [|q bs]; [exact I|]. cbn [stack_ok] in M4. destruct M4 as [b1 [N1 [N2 [N3 N4]]]].
    split; [exists b1; auto|]. destruct N3 as [_ [N3 _]]. eapply Forall_impl; [|exact N3]. cbn. intros; lia.
  - intros Ht. destruct (Main Ht) as [M1 [b0 [M2 [M3 [M4 M5]]]]]. split; [exact M1|].
    exists b0. cbn [b_rstart b_rend b_kids]. auto.
Qed.

Lemma tops_push : forall k bs, b_top k = false -> tops (k :: bs) = tops bs.
Proof. intros k bs H. unfold tops. cbn. rewrite H. reflexivity. Qed.

Lemma tops_swap : forall k k' bs, b_top k = b_top k' -> tops (k :: bs) = tops (k' :: bs).
Proof. intros k k' bs H. unfold tops. cbn. rewrite H. destruct (b_top k'); reflexivity. Qed.

Lemma block_start_inv : forall p a a', p <= e_pos e -> inv p a -> do_block_start e p a = XOk a' -> inv p a'.
Proof.
  intros p a a' Hp [I1 I2] H. unfold do_block_start in H. rewrite (ps_ok p Hp) in H. cbn [xbind] in H.
  injection H as <-. unfold inv.
  set (a1 := set_prev _ _). assert (a_blocks a1 = new_block p (ps p) :: a_blocks a) as Eb
    by (unfold a1; destruct (a_prev a); reflexivity).
  assert (a_prev a1 = None) as Ep by reflexivity. rewrite Eb, Ep. clearbody a1.
  rewrite tops_push by reflexivity. split; [auto|]. intros Ht. destruct (I2 Ht) as [J1 [J2 J3]].
  split; [auto|]. split; [|exact I]. cbn [stack_ok]. exists p. split; [reflexivity|]. split; [lia|].
  split; [apply kids_nil|exact J2].
Qed.

Lemma block_end_inv : forall p a a', p <= e_pos e -> inv p a -> do_block_end e p a = XOk a' -> inv p a'.
Proof.
  intros p a a' Hp HI H. unfold do_block_end in H. xinv H. destruct x as [[b ps'] a1]. injection H as <-.
  apply (close_inv p a b ps' a1 Hp HI E).
Qed.

Lemma block_replace_inv : forall p a a', p <= e_pos e -> inv p a -> do_block_replace e p a = XOk a' -> inv p a'.
Proof.
  intros p a a' Hp HI H. unfold do_block_replace in H. xinv H. destruct x as [[b ps'] a1]. injection H as <-.
  destruct (close_inv p a b ps' a1 Hp HI E) as [[I1 I2] [Ep Hm]].
  unfold inv. cbn [a_blocks set_blocks a_prev]. rewrite tops_push by reflexivity.
  split; [auto|]. intros Ht. destruct (I2 Ht) as [J1 [J2 J3]]. destruct (Hm Ht) as [M1 [b0 [M2 [M3 [M4 [M5 M6]]]]]].
  split; [auto|]. split.
  - cbn [stack_ok]. exists b0. split; [unfold start_ok; cbn; exact M2|]. split; [auto|]. split; [apply kids_nil|auto].
  - rewrite Ep. cbn [prev_ok]. exists b0, p. do 5 (split; [auto|]).
    split; [|constructor]. exists b0. split; [exact M2|lia].
Qed.

Lemma kids_end_lo : forall lo hi ks k, kids_ok lo hi ks -> In k ks -> lo <= offset (r_end (nrng k)).
Proof.
  intros lo hi ks k [H1 [H2 _]] Hk. rewrite Forall_forall in H1, H2.
  pose proof (tree_end _ (H1 _ Hk)). specialize (H2 _ Hk). cbn in H2. lia.
Qed.

Lemma block_merge_inv : forall p a a', p <= e_pos e -> inv p a -> do_block_merge e p a = XOk a' -> inv p a'.
Proof.
  intros p a a' Hp HI H. unfold do_block_merge in H. xinv H. destruct x as [[b ps'] a1].
  destruct (close_inv p a b ps' a1 Hp HI E) as [[I1 I2] [Ep Hm]].
  destruct (b_kids b) as [|kd kds] eqn:Ek; [injection H as <-; split; auto|].
  destruct (a_blocks a1) as [|q bs] eqn:Eq; [discriminate|]. injection H as <-.
  unfold inv. cbn [a_blocks set_prev set_blocks a_prev].
  rewrite (tops_swap _ q) by reflexivity. split; [auto|]. intros Ht.
  destruct (I2 Ht) as [J1 [J2 J3]]. destruct (Hm Ht) as [M1 [b0 [M2 [M3 [M4 [M5 M6]]]]]].
  split; [auto|]. cbn [stack_ok] in M5. destruct M5 as [b1 [N1 [N2 [N3 N4]]]].
  assert (kids_ok (b1 + offset (e_off e)) (p + offset (e_off e)) (b_kids q ++ kd :: kds)) as KA.
  { rewrite <- Ek in *. eapply kids_app with (m := b0 + offset (e_off e)) (m' := b0 + offset (e_off e)); try lia; eauto.
    intros k Hk. eapply kids_end_lo; eauto. }
  split.
  - cbn [stack_ok]. exists b1. split; [exact N1|]. split; [lia|]. split; [exact KA|exact N4].
  - cbn [prev_ok]. exists b0, p. cbn [b_rstart b_rend b_kids]. do 4 (split; [auto|]).
    split; [apply kids_nil|]. split; [exists b1; auto|].
    destruct KA as [_ [KA _]]. eapply Forall_impl; [|exact KA]. cbn. intros; lia.
Qed.

Lemma construct_node : forall i t l ks r n, construct i t l ks r = Some n ->
  n = Node i t r (map to_field l) ks 0.
Proof.
  intros i t l ks r n H. unfold construct in H. destruct (ctor_kinds t); [|discriminate].
  destruct (_ && _) in H; [|discriminate]. congruence.
Qed.

Lemma do_build_inv : forall c k l a n a', c <= e_pos e -> inv c a -> do_build e k l a = XOk (n, a') -> inv c a'.
Proof.
  intros c k l a n a' Hp [I1 I2] H. unfold do_build in H.
  destruct (a_prev a) as [b|] eqn:Ep; [|discriminate].
  destruct (build_call k) as [ty bps]. destruct (eval_bparams _ _ _ _ _ _) as [[pl ops]|]; [|discriminate].
  destruct (terminal ty && nonempty (b_kids b)) eqn:Et; [discriminate|].
  destruct (construct _ _ _ _ _) as [n'|] eqn:Ec; [|discriminate]. apply construct_node in Ec.
  destruct (a_blocks a) as [|q bs] eqn:Eb; [discriminate|]. injection H as -> <-.
  unfold inv. cbn [a_blocks set_fresh set_ops set_prev set_blocks a_prev].
  rewrite (tops_swap _ q) by reflexivity. split; [auto|]. intros Ht.
  destruct (I2 Ht) as [J1 [J2 J3]]. split; [auto|]. split; [|exact I].
  cbn [prev_ok] in J3. destruct J3 as [b0 [f [Q1 [Q2 [Q3 [Q4 [Q5 [[b' [Q6 Q7]] Q8]]]]]]]].
  cbn [stack_ok] in J2 |- *. destruct J2 as [b1 [N1 [N2 [N3 N4]]]].
  assert (b' = b1) by (eapply start_fun; eauto). subst b'.
  exists b1. split; [exact N1|]. split; [auto|]. split; [|exact N4].
  set (ks := if terminal ty then [] else b_kids b) in *.
  assert (kids_ok (b0 + offset (e_off e)) (f + offset (e_off e)) ks) as KS.
  { unfold ks. destruct (terminal ty); [apply kids_nil|exact Q5]. }
  assert (tree_ok n) as Tn.
  { subst n. unfold tree_ok. cbn [preorder]. constructor.
    - split.
      + unfold nested. cbn [nrng nkids r_start r_end]. rewrite Q1, Q2, !ps_off.
        destruct KS as [K1 [K2 K3]]. split; [lia|]. split; [|exact K3].
        intros kk Hk. rewrite Forall_forall in K2. specialize (K2 _ Hk). cbn in K2. lia.
      + exists b0, f. cbn. repeat split; auto; lia.
    - destruct KS as [K1 _]. apply Forall_flat_map. exact K1. }
  eapply kids_app with (m := f + offset (e_off e)) (m' := b1 + offset (e_off e)); try lia.
  - destruct N3 as [N31 [N32 N33]]. split; [exact N31|]. split; [|exact N33].
    rewrite Forall_forall in *. intros x Hx. specialize (N32 x Hx). specialize (Q8 x Hx). cbn in *. lia.
  - split; [repeat constructor; exact Tn|]. split; [|repeat constructor].
    constructor; [|constructor]. subst n. cbn [nrng r_start r_end]. rewrite Q1, Q2, !ps_off. lia.
  - intros x [<-|[]]. subst n. cbn. rewrite Q2, ps_off. lia.
Qed.

Lemma same_inv : forall c a a', a_blocks a' = a_blocks a -> a_prev a' = a_prev a -> inv c a -> inv c a'.
Proof. intros c a a' H1 H2 H. unfold inv in *. rewrite H1, H2. exact H. Qed.

Lemma put_slot_inv : forall c k v a a', put_slot k v a = XOk a' -> inv c a -> inv c a'.
Proof.
  intros c k v a a' H HI. unfold put_slot in H. destruct (a_frames a); [discriminate|].
  destruct (upd l k (Some v)); [|discriminate]. injection H as <-. eapply same_inv; [| |exact HI]; reflexivity.
Qed.

Lemma eval_rhs_inv : forall c r a x, c <= e_pos e -> inv c a -> eval_rhs e r a = XOk x -> inv c (snd x).
Proof.
  intros c [x|k l] a r Hc HI H; cbn [eval_rhs] in H; xinv H; injection H as <-; cbn [snd]; [exact HI|].
  destruct x0 as [n a']. eapply do_build_inv; eauto.
Qed.

Lemma exec_stmt_inv : forall c s a a', c <= e_pos e -> inv c a -> exec_stmt e s a = XOk a' -> inv c a'.
Proof.
  intros c s. induction s as [|x|x| |s| | |o|r|l r|x s IH]; intros a a' Hc HI H; cbn [exec_stmt] in H.
  - unfold do_finished in H. xinv H. injection H as <-. eapply same_inv; [| |exact HI]; reflexivity.
  - xinv H. injection H as <-. eapply same_inv; [| |exact HI]; reflexivity.
  - xinv H. unfold do_seq_add in H. destruct x0; [|discriminate].
    destruct (a_blocks a) as [|q bs] eqn:Eb; [discriminate|]. injection H as <-.
    destruct HI as [I1 I2]. unfold inv. cbn [a_blocks set_blocks a_prev]. rewrite Eb in *.
    rewrite (tops_swap _ q) by reflexivity. split; [auto|]. intros Ht. destruct (I2 Ht) as [J1 [J2 J3]].
    split; [auto|]. split; [exact J2|]. destruct (a_prev a); [|exact I]. exact J3.
  - injection H as <-. eapply same_inv; [| |exact HI]; reflexivity.
  - injection H as <-. eapply same_inv; [| |exact HI]; reflexivity.
  - destruct (a_prev a); [|discriminate]. injection H as <-. eapply same_inv; [| |exact HI]; reflexivity.
  - injection H as <-. eapply same_inv; [| |exact HI]; reflexivity.
  - injection H as <-. eapply same_inv; [| |exact HI]; reflexivity.
  - xinv H. injection H as <-. eapply eval_rhs_inv; eauto.
  - destruct l as [|k]; xinv H.
    + injection H as <-. eapply same_inv; [| |eapply eval_rhs_inv; eauto]; reflexivity.
    + eapply put_slot_inv; [exact H|]. eapply eval_rhs_inv; eauto.
  - xinv H. destruct (match x0 with Some _ => _ | None => _ end); [injection H as <-; exact HI|].
    eapply IH; eauto.
Qed.

Lemma exec_action_inv : forall t p a a', p <= e_pos e -> inv p a -> exec_action e t p a = XOk a' -> inv p a'.
Proof.
  intros t p a a' Hp HI H. destruct t as [n|n|k| | | | |l]; cbn [exec_action] in H.
  - injection H as <-. eapply same_inv; [| |exact HI]; reflexivity.
  - injection H as <-. eapply same_inv; [| |exact HI]; reflexivity.
  - eapply put_slot_inv; eauto.
  - eapply block_start_inv; eauto.
  - eapply block_end_inv; eauto.
  - eapply block_replace_inv; eauto.
  - eapply block_merge_inv; eauto.
  - revert a HI H. induction l as [|s l IH]; intros a HI H; cbn [exec_stmts] in H; [injection H as <-; exact HI|].
    xinv H. eapply IH; [|exact H]. eapply exec_stmt_inv; eauto.
Qed.

(** thunks oldest first, at non-decreasing positions *)
Lemma exec_inv : forall ts c a a', c <= e_pos e -> inv c a ->
  StronglySorted le (c :: map snd ts) -> Forall (fun t => snd t <= e_pos e) ts ->
  exec e ts a = XOk a' -> inv (e_pos e) a'.
Proof.
  induction ts as [|[t p] ts IH]; intros c a a' Hc HI HS HF H; cbn [exec] in H.
  - injection H as <-. eapply inv_up; [exact Hc| |exact HI]. lia.
  - xinv H. inversion HF; subst. cbn [map snd] in *. inversion HS; subst. inversion H5; subst.
    apply (IH p x a'); auto. eapply exec_action_inv; [|eapply inv_up; [| |exact HI]|exact E]; auto.
Qed.

End Ranges.
