(** * Which nodes the actions hold

    Every node built is, until the end, among the children of exactly one block
    or node. *)
From Coq Require Import List Bool Arith Lia Permutation.
From Verif Require Import Peg QuickModel ErrModel CypherSyntax AstTypes AstModel CypherBuild CypherExec CypherSpec.
Import ListNotations.

Definition kids_of (o : option block) : list node := match o with Some b => b_kids b | None => [] end.
Definition held (a : astate) : list node := flat_map b_kids (a_blocks a) ++ kids_of (a_prev a) ++ a_lost a.

(** [a'] has one node more: [n], whose children were held by [a] *)
Definition grown (n : node) (a a' : astate) : Prop :=
  exists rest, Permutation (held a) (nkids n ++ rest) /\ Permutation (held a') (n :: rest) /\
    nid n = a_fresh a /\ a_fresh a' = S (a_fresh a).
Definition kept (a a' : astate) : Prop := Permutation (held a) (held a') /\ a_fresh a' = a_fresh a.

Inductive steps : list node -> astate -> astate -> Prop :=
| st_nil : forall a, steps [] a a
| st_keep : forall l a b c, kept a b -> steps l b c -> steps l a c
| st_grow : forall n l a b c, grown n a b -> steps l b c -> steps (n :: l) a c.

Lemma kept_refl : forall a, kept a a.
Proof. intros a. split; auto. Qed.
Lemma kept_eq : forall a b, held b = held a -> a_fresh b = a_fresh a -> kept a b.
Proof. intros a b H1 H2. split; [rewrite H1; auto|auto]. Qed.
Lemma steps_keep : forall a b, kept a b -> steps [] a b.
Proof. intros a b H. eapply st_keep; [exact H|constructor]. Qed.
Lemma steps_app : forall l1 a b, steps l1 a b -> forall l2 c, steps l2 b c -> steps (l1 ++ l2) a c.
Proof.
  intros l1 a b H. induction H; intros l2 d H2; cbn; [exact H2| |].
  - eapply st_keep; eauto.
  - eapply st_grow; eauto.
Qed.

Lemma build_grown : forall e ct os a n a', do_build e ct os a = XOk (n, a') -> grown n a a'.
Proof.
  intros e ct os a n a' H. unfold do_build in H. destruct (a_prev a) as [b|] eqn:EP; [|discriminate].
  destruct (build_call ct) as [ty bps]. destruct (eval_bparams _ _ _ _ _ _) as [[ps ops]|]; [|discriminate].
  destruct (terminal ty && nonempty (b_kids b)) eqn:ET; [discriminate|].
  destruct (construct _ _ _ _ _) as [m|] eqn:EC; [|discriminate]. destruct (a_blocks a) as [|q bs] eqn:EB; [discriminate|].
  assert (m = n) as -> by congruence.
  assert (Ea : a' = set_fresh (set_ops (set_prev (set_blocks a
           (mkblk (b_top q) (b_bstart q) (b_bend q) (b_rstart q) (b_rend q) (b_seq q) (b_kids q ++ [n]) :: bs)) None) ops)
           (S (a_fresh a))) by congruence. subst a'. clear H.
  assert (Hn : nkids n = b_kids b /\ nid n = a_fresh a).
  { unfold construct in EC. destruct (ctor_kinds ty); [|discriminate].
    destruct (kinds_eqb _ _ && forallb _ _); [|discriminate]. injection EC as <-. cbn. split; [|reflexivity].
    destruct (terminal ty); [|reflexivity]. destruct (b_kids b); [reflexivity|discriminate ET]. }
  destruct Hn as [Hk Hi].
  exists (b_kids q ++ flat_map b_kids bs ++ a_lost a). split; [|split; [|split]].
  - unfold held. rewrite EP, EB, Hk. cbn. rewrite <- app_assoc.
    eapply Permutation_trans; [|apply Permutation_app_comm]. rewrite <- app_assoc. apply Permutation_app_head.
    rewrite <- app_assoc. apply Permutation_app_head. apply Permutation_app_comm.
  - unfold held. cbn. rewrite <- !app_assoc. symmetry. apply (Permutation_middle (b_kids q)).
  - exact Hi.
  - reflexivity.
Qed.

Lemma rhs_steps : forall e r a v a', eval_rhs e r a = XOk (v, a') -> exists l, steps l a a'.
Proof.
  intros e [r|c l] a v a' H; cbn in H.
  - destruct (eval_arg r a); cbn in H; try discriminate. assert (a' = a) as -> by congruence. exists []. constructor.
  - destruct (eval_args l a) as [vs| | |]; cbn in H; try discriminate.
    destruct (do_build e c vs a) as [[n b]| | |] eqn:E; cbn in H; try discriminate. assert (a' = b) as -> by congruence.
    exists [n]. eapply st_grow; [eapply build_grown; eauto|constructor].
Qed.

Lemma put_kept : forall k v a a', put_slot k v a = XOk a' -> kept a a'.
Proof.
  intros k v a a' H. unfold put_slot in H. destruct (a_frames a); [discriminate|]. destruct (upd _ _ _); [|discriminate].
  injection H as <-. apply kept_eq; reflexivity.
Qed.

Lemma stmt_steps : forall e s a a', exec_stmt e s a = XOk a' -> exists l, steps l a a'.
Proof.
  induction s as [| r | r | | bb | | | o | r | l r | r s IH]; intros a a' H; cbn in H.
  - unfold do_finished in H. destruct (fill_contexts _ _); cbn in H; try discriminate. injection H as <-.
    exists []. apply steps_keep, kept_eq; reflexivity.
  - destruct (eval_arg r a); cbn in H; try discriminate. injection H as <-. exists []. apply steps_keep, kept_eq; reflexivity.
  - destruct (eval_arg r a) as [[n|]| | |]; cbn in H; try discriminate. destruct (a_blocks a) as [|b bs] eqn:EB; [discriminate|].
    injection H as <-. exists []. apply steps_keep, kept_eq; [|reflexivity]. unfold held. cbn. rewrite EB. reflexivity.
  - injection H as <-. exists []. apply steps_keep, kept_eq; reflexivity.
  - injection H as <-. exists []. apply steps_keep, kept_eq; reflexivity.
  - destruct (a_prev a) eqn:EP; [|discriminate]. injection H as <-. exists []. apply steps_keep, kept_eq; reflexivity.
  - injection H as <-. exists []. apply steps_keep, kept_eq; reflexivity.
  - injection H as <-. exists []. apply steps_keep, kept_eq; reflexivity.
  - destruct (eval_rhs e r a) as [[v b]| | |] eqn:E; cbn in H; try discriminate. injection H as <-. eapply rhs_steps; eauto.
  - destruct l as [|k]; destruct (eval_rhs e r a) as [[v b]| | |] eqn:E; cbn in H; try discriminate;
      destruct (rhs_steps _ _ _ _ _ E) as [l Hl]; exists l; rewrite <- (app_nil_r l); (eapply steps_app; [exact Hl|]); apply steps_keep.
    + injection H as <-. apply kept_eq; reflexivity.
    + eapply put_kept; eauto.
  - destruct (eval_arg r a) as [v| | |]; cbn in H; try discriminate.
    match type of H with (if ?u then _ else _) = _ => destruct u end; [|eauto]. injection H as <-. exists []. constructor.
Qed.
Lemma stmts_steps : forall e l a a', exec_stmts e l a = XOk a' -> exists ns, steps ns a a'.
Proof.
  induction l as [|s l IH]; intros a a' H; cbn in H.
  - injection H as <-. exists []. constructor.
  - destruct (exec_stmt e s a) as [b| | |] eqn:E; cbn in H; try discriminate. destruct (stmt_steps _ _ _ _ E) as [l1 H1].
    destruct (IH _ _ H) as [l2 H2]. exists (l1 ++ l2). eapply steps_app; eauto.
Qed.

Lemma close_kept : forall e p a b ps a', close_block e p a = XOk (b, ps, a') ->
  kept a a' /\ a_prev a' = Some b.
Proof.
  intros e p a b ps a' H. unfold close_block in H. destruct (x_position e p) as [q| | |]; cbn in H; try discriminate.
  destruct (a_blocks a) as [|b0 bs] eqn:EB; [discriminate|].
  match type of H with (if ?u then _ else _) = _ => destruct u eqn:EU end; [|discriminate].
  injection H as <- <- <-. split; [|reflexivity]. split; [|reflexivity]. unfold held. rewrite EB. cbn.
  apply andb_prop in EU. destruct EU as [_ EU].
  assert (kids_of (a_prev a) = []) as ->. { destruct (a_prev a) as [z|]; [|reflexivity]. cbn. destruct (b_kids z); [auto|discriminate]. }
  cbn. rewrite !app_assoc. apply Permutation_app_tail. apply Permutation_app_comm.
Qed.

(** only statements build nodes *)
Lemma action_quiet : forall e t p a a', exec_action e t p a = XOk a' -> steps [] a a' \/ exists l, t = TDo l.
Proof.
  intros e t p a a' H. destruct t as [n|k|n| | | | |l]; [left..|right; eauto]; cbn in H.
  - injection H as <-. apply steps_keep, kept_eq; reflexivity.
  - injection H as <-. apply steps_keep, kept_eq; reflexivity.
  - apply steps_keep. eapply put_kept; eauto.
  - unfold do_block_start in H. destruct (x_position e p) as [q| | |]; cbn in H; try discriminate. injection H as <-.
    apply steps_keep. destruct (a_prev a) as [b|] eqn:EP; cbn; (split; [|reflexivity]); unfold held; cbn; rewrite EP; cbn.
    + apply Permutation_app_head, Permutation_app_comm.
    + auto.
  - unfold do_block_end in H. destruct (close_block e p a) as [[[b ps] a1]| | |] eqn:E; cbn in H; try discriminate. injection H as <-.
    apply steps_keep. eapply close_kept; eauto.
  - unfold do_block_replace in H. destruct (close_block e p a) as [[[b ps] a1]| | |] eqn:E; cbn in H; try discriminate. injection H as <-.
    destruct (close_kept _ _ _ _ _ _ E) as [K _]. eapply st_keep; [exact K|]. apply steps_keep, kept_eq; reflexivity.
  - unfold do_block_merge in H. destruct (close_block e p a) as [[[b ps] a1]| | |] eqn:E; cbn in H; try discriminate.
    destruct (close_kept _ _ _ _ _ _ E) as [K Hp]. destruct (b_kids b) as [|k0 kr] eqn:EK.
    + injection H as <-. apply steps_keep. exact K.
    + destruct (a_blocks a1) as [|q bs] eqn:EB; [discriminate|]. injection H as <-. eapply st_keep; [exact K|].
      apply steps_keep. split; [|reflexivity]. unfold held. rewrite Hp, EB. cbn [flat_map a_blocks a_prev a_lost set_prev set_blocks kids_of b_kids app].
      rewrite EK, <- !app_assoc. apply Permutation_app_head. rewrite !app_assoc. apply Permutation_app_tail. apply Permutation_app_comm.
Qed.
Lemma action_steps : forall e t p a a', exec_action e t p a = XOk a' -> exists l, steps l a a'.
Proof.
  intros e t p a a' H. destruct (action_quiet _ _ _ _ _ H) as [K|[l ->]]; [exists []; exact K|]. eapply stmts_steps; eauto.
Qed.
Lemma exec_steps : forall e l a a', exec e l a = XOk a' -> exists ns, steps ns a a'.
Proof.
  induction l as [|[t p] l IH]; intros a a' H; cbn in H.
  - injection H as <-. exists []. constructor.
  - destruct (exec_action e t p a) as [b| | |] eqn:E; cbn in H; try discriminate. destruct (action_steps _ _ _ _ _ E) as [l1 H1].
    destruct (IH _ _ H) as [l2 H2]. exists (l1 ++ l2). eapply steps_app; eauto.
Qed.

(** ** Consequences *)
Lemma forest_perm : forall l m, Permutation l m -> Permutation (forest l) (forest m).
Proof. intros l m H. unfold forest. apply Permutation_flat_map. exact H. Qed.
Lemma preorder_node : forall n, preorder n = n :: forest (nkids n).
Proof. intros [i t r f ks o]. reflexivity. Qed.
Lemma forest_app : forall l m, forest (l ++ m) = forest l ++ forest m.
Proof. intros. apply flat_map_app. Qed.
Lemma grown_forest : forall n a a', grown n a a' -> Permutation (forest (held a')) (n :: forest (held a)).
Proof.
  intros n a a' [rest [H1 [H2 _]]]. eapply Permutation_trans; [eapply forest_perm, H2|].
  change (forest (n :: rest)) with (preorder n ++ forest rest). rewrite preorder_node. cbn. apply perm_skip.
  rewrite <- forest_app. apply forest_perm. symmetry. exact H1.
Qed.

(** identities, from [lo] on, are assigned once *)
Definition numbered_once (lo : nat) (a : astate) : Prop :=
  NoDup (map nid (forest (held a))) /\ Forall (fun n => lo <= nid n < a_fresh a) (forest (held a)) /\ lo <= a_fresh a.
Lemma steps_once : forall lo l a a', steps l a a' -> numbered_once lo a -> numbered_once lo a'.
Proof.
  intros lo l a a' H. induction H as [a|l a b c [H1 H2] _ IH|n l a b c HG _ IH]; intros HN; auto; apply IH.
  - destruct HN as [N1 [N2 N3]]. pose proof (forest_perm _ _ H1) as HP. split; [|split; [|lia]].
    + eapply Permutation_NoDup; [apply Permutation_map, HP|exact N1].
    + rewrite H2. eapply Permutation_Forall; [exact HP|exact N2].
  - pose proof (grown_forest _ _ _ HG) as HP. destruct HG as [rest [_ [_ [Hi Hf]]]]. destruct HN as [N1 [N2 N3]].
    symmetry in HP. split; [|split; [|lia]].
    + eapply Permutation_NoDup; [apply Permutation_map, HP|]. cbn. constructor; [|exact N1].
      intros Hin. apply in_map_iff in Hin. destruct Hin as [m [E Hm]]. rewrite Forall_forall in N2. apply N2 in Hm. lia.
    + eapply Permutation_Forall; [exact HP|]. constructor; [lia|]. eapply Forall_impl; [|exact N2]. cbn. intros; lia.
Qed.

(** a property of every node built *)
Lemma steps_forall : forall (P : node -> Prop) l a a', steps l a a' -> Forall P l ->
  Forall P (forest (held a)) -> Forall P (forest (held a')).
Proof.
  intros P l a a' H. induction H as [a|l a b c [H1 H2] _ IH|n l a b c HG _ IH]; intros HL HF; auto; apply IH; auto.
  - eapply Permutation_Forall; [apply forest_perm, H1|exact HF].
  - inversion HL; auto.
  - pose proof (grown_forest _ _ _ HG) as HP. symmetry in HP. inversion HL; subst.
    eapply Permutation_Forall; [exact HP|]. constructor; auto.
Qed.
(** no node built is lost *)
Lemma steps_all : forall l a a', steps l a a' -> Permutation (forest (held a')) (rev l ++ forest (held a)).
Proof.
  intros l a a' H. induction H as [a|l a b c [H1 H2] _ IH|n l a b c HG _ IH].
  - auto.
  - eapply Permutation_trans; [exact IH|]. apply Permutation_app_head. symmetry. apply forest_perm, H1.
  - eapply Permutation_trans; [exact IH|]. cbn. rewrite <- app_assoc. apply Permutation_app_head. apply grown_forest. exact HG.
Qed.
