(** * Literals and names: what the nodes for them contain *)
From Coq Require Import List Bool Arith Ascii String ZArith Lia Permutation.
From Verif Require Import Peg PegProofs PegThunks QuickModel QuickSpec QuickProofs CypherSyntax CypherGrammar ErrModel
  CypherMatch AstTypes AstModel CypherBuild CypherExec CypherParse CypherRound CypherSpec NodeFacts CypherLoop
  CypherChain NodeHeld FlowSound FlowRun SafeProofs SafeNodes TraceSpec TraceProofs LexSpec.
Import ListNotations.
Open Scope peg_scope.
Opaque parse_one cfuel.
Strategy expand [crun].

(** ** Blocks: how deep a list of thunks leaves the stack *)
Fixpoint bal (l : list (action * nat)) (d : nat) : option nat :=
  match l with
  | [] => Some d
  | (t, _) :: l =>
      match t with
      | TBlockStart => bal l (S d)
      | TBlockEnd | TBlockMerge => match d with S k => bal l k | 0 => None end
      | TBlockReplace => match d with S _ => bal l d | 0 => None end
      | _ => bal l d
      end
  end.

Lemma bal_app : forall l1 l2 d d1, bal l1 d = Some d1 -> bal (l1 ++ l2) d = bal l2 d1.
Proof.
  induction l1 as [|[t p] l1 IH]; intros l2 d d1 H; cbn in *; [congruence|].
  destruct t; try (destruct d as [|d]; try discriminate); eauto.
Qed.
Lemma bal_up : forall l d d1 k, bal l d = Some d1 -> bal l (d + k) = Some (d1 + k).
Proof.
  induction l as [|[t p] l IH]; intros d d1 k H; cbn in *; [congruence|].
  destruct t; try (apply IH; exact H); try (apply (IH (S d)); exact H); (destruct d as [|d]; [discriminate|]).
  - cbn. apply IH. exact H.
  - apply (IH (S d)). exact H.
  - cbn. apply IH. exact H.
Qed.
Lemma bal_0 : forall l d, bal l 0 = Some 0 -> bal l d = Some d.
Proof. intros l d H. apply (bal_up _ _ _ d) in H. exact H. Qed.

(** the same for expressions *)
Fixpoint balx (x : cexp) (d : nat) : option nat :=
  match x with
  | PRule r => match r with
               | R__block_start_ => Some (S d)
               | R__block_end_ | R__block_merge_ => match d with S k => Some k | 0 => None end
               | R__block_replace_ => match d with S _ => Some d | 0 => None end
               | _ => Some d
               end
  | PSeq e1 e2 => match balx e1 d with Some k => balx e2 k | None => None end
  | PAlt e1 e2 =>
      match balx e1 d, balx e2 d with Some a, Some b => if Nat.eqb a b then Some a else None | _, _ => None end
  | PStar e1 | PPlus e1 | PQuery e1 => match balx e1 d with Some a => if Nat.eqb a d then Some d else None | None => None end
  | PErr e1 _ => balx e1 d
  | PAct t | PPred (QDo t) => bal [(t, 0)] d
  | PPred (QConst false) => Some d
  | _ => Some d
  end.
Definition block_rule_name (r : rule) : bool :=
  match r with R__block_start_ | R__block_end_ | R__block_merge_ | R__block_replace_ => true | _ => false end.

Lemma rules_bal : forall r, block_rule_name r = false -> balx (CG r) 0 = Some 0.
Proof.
  assert (K : forallb (fun r => block_rule_name r || match balx (CG r) 0 with Some 0 => true | _ => false end) all_rules = true)
    by (vm_compute; reflexivity).
  intros r Hr. rewrite forallb_forall in K. specialize (K r (all_rules_complete r)). rewrite Hr in K.
  destruct (balx (CG r) 0) as [[|d]|]; try discriminate. reflexivity.
Qed.

Lemma emits_bal : forall e l, emits CG e l -> forall d d', balx e d = Some d' -> bal l d = Some d'.
Proof.
  intros e l H. induction H as [ | | | | | | r l H IH | e1 e2 l1 l2 _ IH1 _ IH2 | e1 e2 l _ IH | e1 e2 l _ IH | | e0 l _ IH |
    | e0 l1 l2 _ IH1 _ IH2 | e0 l1 l2 _ IH1 _ IH2 | t p | t p | q Hq Hc | e0 x l _ IH ]; intros d d' HB; cbn [balx] in HB;
    try (injection HB as <-; reflexivity).
  - destruct (block_rule_name r) eqn:Hr.
    + destruct r; try discriminate Hr; cbn in HB.
      * apply IH. cbn. exact HB.
      * apply IH. cbn. exact HB.
      * apply IH. cbn. exact HB.
      * apply IH. cbn. exact HB.
    + assert (d' = d) as -> by (destruct r; try discriminate Hr; congruence). apply bal_0. apply IH. apply rules_bal. exact Hr.
  - destruct (balx e1 d) as [k|] eqn:E; [|discriminate]. rewrite (bal_app _ _ _ _ (IH1 _ _ E)). apply IH2. exact HB.
  - destruct (balx e1 d) as [k|] eqn:E; [|discriminate]. destruct (balx e2 d) as [j|]; [|discriminate].
    destruct (Nat.eqb k j); [|discriminate]. injection HB as <-. auto.
  - destruct (balx e1 d) as [k|] eqn:E; [|discriminate]. destruct (balx e2 d) as [j|] eqn:E2; [|discriminate].
    destruct (Nat.eqb k j) eqn:K; [|discriminate]. injection HB as <-. apply Nat.eqb_eq in K. subst. auto.
  - destruct (balx e0 d) as [k|] eqn:E; [|discriminate]. destruct (Nat.eqb k d) eqn:K; [|discriminate]. injection HB as <-. reflexivity.
  - destruct (balx e0 d) as [k|] eqn:E; [|discriminate]. destruct (Nat.eqb k d) eqn:K; [|discriminate]. injection HB as <-.
    apply Nat.eqb_eq in K. subst. auto.
  - destruct (balx e0 d) as [k|] eqn:E; [|discriminate]. destruct (Nat.eqb k d) eqn:K; [|discriminate]. injection HB as <-. reflexivity.
  - assert (HB' := HB). destruct (balx e0 d) as [k|] eqn:E; [|discriminate]. destruct (Nat.eqb k d) eqn:K; [|discriminate]. injection HB as <-.
    apply Nat.eqb_eq in K. subst. rewrite (bal_app _ _ _ _ (IH1 _ _ E)). apply IH2. cbn. rewrite E, Nat.eqb_refl. reflexivity.
  - assert (HB' := HB). destruct (balx e0 d) as [k|] eqn:E; [|discriminate]. destruct (Nat.eqb k d) eqn:K; [|discriminate]. injection HB as <-.
    apply Nat.eqb_eq in K. subst. rewrite (bal_app _ _ _ _ (IH1 _ _ E)). apply IH2. cbn. rewrite E, Nat.eqb_refl. reflexivity.
  - exact HB.
  - exact HB.
  - assert (d' = d) as ->; [|reflexivity]. destruct q; cbn in HB; try congruence; try (exfalso; eapply Hq; reflexivity); destruct b; congruence.
  - auto.
Qed.

(** what does not change in the blocks below *)
Definition bhead (b : block) : nat * position := (b_bstart b, b_rstart b).
Definition below (k : nat) (a : astate) : list (nat * position) := skipn k (map bhead (a_blocks a)).

Lemma build_heads : forall e c os a n a', do_build e c os a = XOk (n, a') -> map bhead (a_blocks a') = map bhead (a_blocks a).
Proof.
  intros e c os a n a' H. unfold do_build in H. destruct (a_prev a) as [b|]; [|discriminate].
  destruct (build_call c) as [ty bps]. destruct (eval_bparams _ _ _ _ _ _) as [[ps ops]|]; [|discriminate].
  destruct (_ && _); [discriminate|]. destruct (construct _ _ _ _ _) as [m|]; [|discriminate].
  destruct (a_blocks a) as [|q bs]; [discriminate|]. injection H as <- <-. reflexivity.
Qed.
Lemma rhs_heads : forall e r a v a', eval_rhs e r a = XOk (v, a') -> map bhead (a_blocks a') = map bhead (a_blocks a).
Proof.
  intros e [x|c l] a v a' H; cbn in H.
  - destruct (eval_arg x a); cbn in H; try discriminate. injection H as <- <-. reflexivity.
  - destruct (eval_args l a) as [vs| | |]; cbn in H; try discriminate.
    destruct (do_build e c vs a) as [[n b]| | |] eqn:E; cbn in H; try discriminate. injection H as <- <-. eapply build_heads; eauto.
Qed.
Lemma put_heads : forall k v a a', put_slot k v a = XOk a' -> a_blocks a' = a_blocks a.
Proof.
  intros k v a a' H. unfold put_slot in H. destruct (a_frames a); [discriminate|]. destruct (upd _ _ _); [|discriminate].
  injection H as <-. reflexivity.
Qed.
Lemma stmt_heads : forall e s a a', exec_stmt e s a = XOk a' -> map bhead (a_blocks a') = map bhead (a_blocks a).
Proof.
  induction s as [| r | r | | bb | | | o | r | l r | r s IH]; intros a a' H; cbn in H.
  - unfold do_finished in H. destruct (fill_contexts _ _); cbn in H; try discriminate. injection H as <-. reflexivity.
  - destruct (eval_arg r a); cbn in H; try discriminate. injection H as <-. reflexivity.
  - destruct (eval_arg r a) as [[n|]| | |]; cbn in H; try discriminate. destruct (a_blocks a) as [|b bs] eqn:EB; [discriminate|].
    injection H as <-. reflexivity.
  - injection H as <-. reflexivity.
  - injection H as <-. reflexivity.
  - destruct (a_prev a) eqn:EP; [|discriminate]. injection H as <-. reflexivity.
  - injection H as <-. reflexivity.
  - injection H as <-. reflexivity.
  - destruct (eval_rhs e r a) as [[v b]| | |] eqn:E; cbn in H; try discriminate. injection H as <-. eapply rhs_heads; eauto.
  - destruct l as [|k]; destruct (eval_rhs e r a) as [[v b]| | |] eqn:E; cbn in H; try discriminate.
    + injection H as <-. eapply (rhs_heads _ _ _ _ _ E).
    + rewrite (put_heads _ _ _ _ H). eapply rhs_heads; eauto.
  - destruct (eval_arg r a) as [v| | |]; cbn in H; try discriminate.
    match type of H with (if ?u then _ else _) = _ => destruct u end; [|eauto]. injection H as <-. reflexivity.
Qed.
Lemma stmts_heads : forall e l a a', exec_stmts e l a = XOk a' -> map bhead (a_blocks a') = map bhead (a_blocks a).
Proof.
  induction l as [|s l IH]; intros a a' H; cbn in H; [injection H as <-; reflexivity|].
  destruct (exec_stmt e s a) as [b| | |] eqn:E; cbn in H; try discriminate. rewrite (IH _ _ H). eapply stmt_heads; eauto.
Qed.

Lemma close_heads : forall e p a b ps a', close_block e p a = XOk (b, ps, a') ->
  exists b0 bs, a_blocks a = b0 :: bs /\ a_blocks a' = bs /\ x_position e p = XOk ps /\
    b = mkblk (b_top b0) (b_bstart b0) p (b_rstart b0) ps (b_seq b0) (b_kids b0) /\ a_prev a' = Some b /\ a_sb a' = a_sb a.
Proof.
  intros e p a b ps a' H. unfold close_block in H. destruct (x_position e p) as [q| | |] eqn:EP; cbn in H; try discriminate.
  destruct (a_blocks a) as [|b0 bs]; [discriminate|].
  match type of H with (if ?u then _ else _) = _ => destruct u end; [|discriminate].
  injection H as <- <- <-. exists b0, bs. repeat split; reflexivity.
Qed.

Lemma exec_below : forall e l d d' a a', bal l d = Some d' -> exec e l a = XOk a' -> below d' a' = below d a.
Proof.
  intros e. induction l as [|[t p] l IH]; intros d d' a a' HB HE; cbn in HB.
  - injection HB as <-. injection HE as <-. reflexivity.
  - cbn [exec] in HE. destruct (exec_action e t p a) as [a1| | |] eqn:E; cbn in HE; try discriminate.
    destruct t; cbn in E.
    + injection E as <-. rewrite (IH _ _ _ _ HB HE). reflexivity.
    + injection E as <-. rewrite (IH _ _ _ _ HB HE). reflexivity.
    + rewrite (IH _ _ _ _ HB HE). unfold below. rewrite (put_heads _ _ _ _ E). reflexivity.
    + rewrite (IH _ _ _ _ HB HE). unfold do_block_start in E. destruct (x_position e p) as [ps| | |]; cbn in E; try discriminate.
      injection E as <-. unfold below. destruct (a_prev a); reflexivity.
    + destruct d as [|d]; [discriminate|]. rewrite (IH _ _ _ _ HB HE). unfold do_block_end in E.
      destruct (close_block e p a) as [[[b ps] a2]| | |] eqn:EC; cbn in E; try discriminate. injection E as <-.
      destruct (close_heads _ _ _ _ _ _ EC) as (b0 & bs & E1 & E2 & _). unfold below. rewrite E1, E2. reflexivity.
    + destruct d as [|d]; [discriminate|]. rewrite (IH _ _ _ _ HB HE). unfold do_block_replace in E.
      destruct (close_block e p a) as [[[b ps] a2]| | |] eqn:EC; cbn in E; try discriminate. injection E as <-.
      destruct (close_heads _ _ _ _ _ _ EC) as (b0 & bs & E1 & E2 & _). unfold below. cbn. rewrite E1, E2. reflexivity.
    + destruct d as [|d]; [discriminate|]. rewrite (IH _ _ _ _ HB HE). unfold do_block_merge in E.
      destruct (close_block e p a) as [[[b ps] a2]| | |] eqn:EC; cbn in E; try discriminate.
      destruct (close_heads _ _ _ _ _ _ EC) as (b0 & bs & E1 & E2 & _). destruct (b_kids b) as [|k0 kr].
      * injection E as <-. unfold below. rewrite E1, E2. reflexivity.
      * destruct (a_blocks a2) as [|q qs]; [discriminate|]. injection E as <-. unfold below. rewrite E1, <- E2. reflexivity.
    + rewrite (IH _ _ _ _ HB HE). unfold below. rewrite (stmts_heads _ _ _ _ E). reflexivity.
Qed.

(** ** The string buffer *)
Fixpoint sb_stmt (s : stmt) : bool :=
  match s with
  | SStrReset | SStrAppend _ | SStrBlock => true
  | SIfNotIdent _ s => sb_stmt s
  | _ => false
  end.
Definition sb_free (t : action) : bool := match t with TDo l => forallb (fun s => negb (sb_stmt s)) l | _ => true end.

Lemma build_sb : forall e c os a n a', do_build e c os a = XOk (n, a') -> a_sb a' = a_sb a.
Proof.
  intros e c os a n a' H. unfold do_build in H. destruct (a_prev a) as [b|]; [|discriminate].
  destruct (build_call c) as [ty bps]. destruct (eval_bparams _ _ _ _ _ _) as [[ps ops]|]; [|discriminate].
  destruct (_ && _); [discriminate|]. destruct (construct _ _ _ _ _) as [m|]; [|discriminate].
  destruct (a_blocks a) as [|q bs]; [discriminate|]. injection H as <- <-. reflexivity.
Qed.
Lemma rhs_sb : forall e r a v a', eval_rhs e r a = XOk (v, a') -> a_sb a' = a_sb a.
Proof.
  intros e [x|c l] a v a' H; cbn in H.
  - destruct (eval_arg x a); cbn in H; try discriminate. injection H as <- <-. reflexivity.
  - destruct (eval_args l a) as [vs| | |]; cbn in H; try discriminate.
    destruct (do_build e c vs a) as [[n b]| | |] eqn:E; cbn in H; try discriminate. injection H as <- <-. eapply build_sb; eauto.
Qed.
Lemma put_sb : forall k v a a', put_slot k v a = XOk a' -> a_sb a' = a_sb a.
Proof.
  intros k v a a' H. unfold put_slot in H. destruct (a_frames a); [discriminate|]. destruct (upd _ _ _); [|discriminate].
  injection H as <-. reflexivity.
Qed.
Lemma stmt_sb : forall e s a a', sb_stmt s = false -> exec_stmt e s a = XOk a' -> a_sb a' = a_sb a.
Proof.
  induction s as [| r | r | | bb | | | o | r | l r | r s IH]; intros a a' HS H; cbn in H; try discriminate HS.
  - unfold do_finished in H. destruct (fill_contexts _ _); cbn in H; try discriminate. injection H as <-. reflexivity.
  - destruct (eval_arg r a); cbn in H; try discriminate. injection H as <-. reflexivity.
  - destruct (eval_arg r a) as [[n|]| | |]; cbn in H; try discriminate. destruct (a_blocks a) as [|b bs] eqn:EB; [discriminate|].
    injection H as <-. reflexivity.
  - injection H as <-. reflexivity.
  - injection H as <-. reflexivity.
  - destruct (eval_rhs e r a) as [[v b]| | |] eqn:E; cbn in H; try discriminate. injection H as <-. eapply rhs_sb; eauto.
  - destruct l as [|k]; destruct (eval_rhs e r a) as [[v b]| | |] eqn:E; cbn in H; try discriminate.
    + injection H as <-. eapply (rhs_sb _ _ _ _ _ E).
    + rewrite (put_sb _ _ _ _ H). eapply rhs_sb; eauto.
  - destruct (eval_arg r a) as [v| | |]; cbn in H; try discriminate.
    match type of H with (if ?u then _ else _) = _ => destruct u end; [|eauto]. injection H as <-. reflexivity.
Qed.
Lemma action_sb : forall e t p a a', sb_free t = true -> exec_action e t p a = XOk a' -> a_sb a' = a_sb a.
Proof.
  intros e t p a a' HS E. destruct t; cbn in E.
  - injection E as <-. reflexivity.
  - injection E as <-. reflexivity.
  - eapply put_sb; eauto.
  - unfold do_block_start in E. destruct (x_position e p) as [ps| | |]; cbn in E; try discriminate.
    injection E as <-. destruct (a_prev a); reflexivity.
  - unfold do_block_end in E. destruct (close_block e p a) as [[[b ps] a2]| | |] eqn:EC; cbn in E; try discriminate. injection E as <-.
    destruct (close_heads _ _ _ _ _ _ EC) as (b0 & bs & _ & _ & _ & _ & _ & E1). exact E1.
  - unfold do_block_replace in E. destruct (close_block e p a) as [[[b ps] a2]| | |] eqn:EC; cbn in E; try discriminate. injection E as <-.
    destruct (close_heads _ _ _ _ _ _ EC) as (b0 & bs & _ & _ & _ & _ & _ & E1). exact E1.
  - unfold do_block_merge in E. destruct (close_block e p a) as [[[b ps] a2]| | |] eqn:EC; cbn in E; try discriminate.
    destruct (close_heads _ _ _ _ _ _ EC) as (b0 & bs & _ & _ & _ & _ & _ & E1). destruct (b_kids b) as [|k0 kr].
    + injection E as <-. exact E1.
    + destruct (a_blocks a2) as [|q qs]; [discriminate|]. injection E as <-. exact E1.
  - cbn in HS. revert a E. induction l as [|s l IH]; intros a E; cbn in E; [injection E as <-; reflexivity|].
    cbn in HS. apply andb_prop in HS. destruct HS as [H1 H2].
    destruct (exec_stmt e s a) as [b| | |] eqn:ES; cbn in E; try discriminate. rewrite (IH H2 _ E).
    eapply stmt_sb; [|eauto]. destruct (sb_stmt s); [discriminate|reflexivity].
Qed.

(** ** What lists of thunks do *)
Definition leafy (c : ctor) : bool := leaf_type (fst (build_call c)).

Section Lists.
Variable inp : bytes.

Definition makes (l : list (action * nat)) (vs : list leaf) : Prop :=
  forall e a a', e_inp e = inp -> exec e l a = XOk a' ->
  exists ns, steps ns a a' /\
    Permutation (map leaf_view (filter is_leaf ns)) (map (leaf_at (offset (e_off e))) vs).
Definition appends (l : list (action * nat)) (t : bytes) : Prop :=
  forall e a a', e_inp e = inp -> exec e l a = XOk a' -> a_sb a' = a_sb a ++ t.
Definition lexes (l : list (action * nat)) (t : bytes) : Prop := makes l [] /\ appends l t /\ bal l 0 = Some 0.

Lemma makes_nil : makes [] [].
Proof. intros e a a' _ H. injection H as <-. exists []. split; [constructor|apply Permutation_refl]. Qed.
Lemma makes_app : forall l1 v1 l2 v2, makes l1 v1 -> makes l2 v2 -> makes (l1 ++ l2) (v1 ++ v2).
Proof.
  intros l1 v1 l2 v2 H1 H2 e a a' HI H. rewrite exec_app in H.
  destruct (exec e l1 a) as [b| | |] eqn:E; cbn [xbind] in H; try discriminate.
  destruct (H1 _ _ _ HI E) as [n1 [S1 P1]]. destruct (H2 _ _ _ HI H) as [n2 [S2 P2]]. exists (n1 ++ n2).
  split; [eapply steps_app; eauto|]. rewrite filter_app, !map_app. apply Permutation_app; assumption.
Qed.
Lemma makes_perm : forall l v1 v2, Permutation v1 v2 -> makes l v1 -> makes l v2.
Proof.
  intros l v1 v2 HP H e a a' HI HE. destruct (H _ _ _ HI HE) as [n [S1 P1]]. exists n. split; [exact S1|].
  eapply Permutation_trans; [exact P1|]. apply Permutation_map. exact HP.
Qed.
Lemma no_leaf : forall l ns, forallb (fun c => negb (leafy c)) l = true -> Forall (of_ctors l) ns -> filter is_leaf ns = [].
Proof.
  intros l ns Ht T1. induction T1 as [|n ns [c [C1 C2]] _ IH]; [reflexivity|]. cbn. unfold is_leaf. rewrite C2.
  rewrite forallb_forall in Ht. apply Ht in C1. unfold leafy in C1. destruct (leaf_type _); [discriminate|exact IH].
Qed.
Lemma makes_plain : forall t p, forallb (fun c => negb (leafy c)) (ctors t) = true -> makes [(t, p)] [].
Proof.
  intros t p Ht e a a' _ H. cbn in H. destruct (exec_action e t p a) as [b| | |] eqn:E; cbn in H; try discriminate.
  injection H as <-. destruct (action_typed _ _ _ _ _ E) as [n1 [S1 T1]]. exists n1. split; [exact S1|].
  rewrite (no_leaf _ _ Ht T1). apply Permutation_refl.
Qed.

Lemma appends_nil : appends [] [].
Proof. intros e a a' _ H. injection H as <-. rewrite app_nil_r. reflexivity. Qed.
Lemma appends_app : forall l1 v1 l2 v2, appends l1 v1 -> appends l2 v2 -> appends (l1 ++ l2) (v1 ++ v2).
Proof.
  intros l1 v1 l2 v2 H1 H2 e a a' HI H. rewrite exec_app in H.
  destruct (exec e l1 a) as [b| | |] eqn:E; cbn [xbind] in H; try discriminate.
  rewrite (H2 _ _ _ HI H), (H1 _ _ _ HI E). symmetry. apply app_assoc.
Qed.
Lemma appends_free : forall t p, sb_free t = true -> appends [(t, p)] [].
Proof.
  intros t p Ht e a a' _ H. cbn in H. destruct (exec_action e t p a) as [b| | |] eqn:E; cbn in H; try discriminate.
  injection H as <-. rewrite (action_sb _ _ _ _ _ Ht E), app_nil_r. reflexivity.
Qed.
Lemma appends_text : forall t p, appends [(TDo [SStrAppend t], p)] t.
Proof. intros t p e a a' _ H. cbn in H. injection H as <-. reflexivity. Qed.

Lemma lexes_nil : lexes [] [].
Proof. split; [apply makes_nil|split; [apply appends_nil|reflexivity]]. Qed.
Lemma lexes_app : forall l1 t1 l2 t2, lexes l1 t1 -> lexes l2 t2 -> lexes (l1 ++ l2) (t1 ++ t2).
Proof.
  intros l1 t1 l2 t2 (A1 & A2 & A3) (B1 & B2 & B3). split; [apply (makes_app _ [] _ []); auto|]. split; [apply appends_app; auto|].
  rewrite (bal_app _ _ _ _ A3). exact B3.
Qed.
Lemma lexes_text : forall t p, lexes [(TDo [SStrAppend t], p)] t.
Proof. intros t p. split; [apply makes_plain; reflexivity|split; [apply appends_text|reflexivity]]. Qed.
Lemma lexes_block : forall p q r, lexes [(TBlockStart, p); (TBlockEnd, q); (TDo [SStrBlock], r)] (slice inp p q).
Proof.
  intros p q r. split.
  - apply (makes_app [_] [] [_; _] []); [apply makes_plain; reflexivity|].
    apply (makes_app [_] [] [_] []); apply makes_plain; reflexivity.
  - split; [|reflexivity]. intros e a a' HI H. cbn [exec exec_action] in H.
    destruct (do_block_start e p a) as [a1| | |] eqn:E1; cbn in H; try discriminate.
    destruct (do_block_end e q a1) as [a2| | |] eqn:E2; cbn in H; try discriminate.
    unfold do_block_start in E1. destruct (x_position e p) as [ps| | |]; cbn in E1; try discriminate.
    unfold do_block_end in E2. destruct (close_block e q a1) as [[[b qs] a3]| | |] eqn:EC; cbn in E2; try discriminate. injection E2 as <-.
    destruct (close_heads _ _ _ _ _ _ EC) as (b0 & bs & C1 & _ & _ & C2 & C3 & C4). rewrite C3 in H. cbn in H. injection H as <-. cbn.
    rewrite C4, C2, HI. cbn.
    assert (a_sb a1 = a_sb a /\ b_bstart b0 = p) as [-> ->]; [|reflexivity].
    destruct (a_prev a); injection E1 as <-; cbn in C1 |- *; injection C1 as <- <-; auto.
Qed.

(** the block that was opened at [p], when it is closed at [q] *)
Lemma block_closed : forall e l p q a a' close, bal l 0 = Some 0 -> close = TBlockEnd \/ close = TBlockMerge ->
  exec e ([(TBlockStart, p)] ++ l ++ [(close, q)]) a = XOk a' ->
  exists b, a_prev a' = Some b /\ b_bstart b = p /\ b_bend b = q /\
    offset (b_rstart b) = p + offset (e_off e) /\ offset (b_rend b) = q + offset (e_off e).
Proof.
  intros e l p q a a' close HB HC H. rewrite exec_app in H.
  destruct (exec e [(TBlockStart, p)] a) as [a1| | |] eqn:E1; cbn [xbind] in H; try discriminate. rewrite exec_app in H.
  destruct (exec e l a1) as [a2| | |] eqn:E2; cbn [xbind] in H; try discriminate.
  cbn in E1. destruct (do_block_start e p a) as [a0| | |] eqn:E0; cbn in E1; try discriminate. injection E1 as ->.
  unfold do_block_start in E0. destruct (x_position e p) as [ps| | |] eqn:EP; cbn in E0; try discriminate.
  apply x_position_offset in EP.
  assert (exists bs, map bhead (a_blocks a1) = (p, ps) :: bs) as [bs K] by (destruct (a_prev a); injection E0 as <-; eexists; reflexivity).
  pose proof (exec_below _ _ _ _ _ _ HB E2) as K2. unfold below in K2. cbn [skipn] in K2. rewrite K in K2.
  assert (exists b0 c0 d, close_block e q a2 = XOk (b0, c0, d) /\ (a_prev a' = Some b0 \/
     a_prev a' = Some (mkblk (b_top b0) (b_bstart b0) (b_bend b0) (b_rstart b0) (b_rend b0) (b_seq b0) []))) as (b0 & c0 & d & EC & EV).
  { destruct HC as [-> | ->]; cbn in H.
    - unfold do_block_end in H. destruct (close_block e q a2) as [[[b0 c0] d]| | |] eqn:EC; cbn in H; try discriminate.
      injection H as <-. exists b0, c0, d. split; [reflexivity|]. left. destruct (close_heads _ _ _ _ _ _ EC) as (? & ? & _ & _ & _ & _ & X & _). exact X.
    - unfold do_block_merge in H. destruct (close_block e q a2) as [[[b0 c0] d]| | |] eqn:EC; cbn in H; try discriminate.
      exists b0, c0, d. split; [reflexivity|]. destruct (close_heads _ _ _ _ _ _ EC) as (? & ? & _ & _ & _ & _ & X & _).
      destruct (b_kids b0) as [|k ks]; [cbn in H; injection H as <-; left; exact X|]. destruct (a_blocks d); [discriminate|]. cbn in H. injection H as <-.
      right. reflexivity. }
  destruct (close_heads _ _ _ _ _ _ EC) as (b1 & bs1 & C1 & _ & CP & C2 & _). apply x_position_offset in CP.
  rewrite C1 in K2. cbn in K2. injection K2 as K2 K3 _.
  destruct EV as [EV|EV]; eexists; (split; [exact EV|]); rewrite C2; cbn; rewrite K2, K3; auto.
Qed.

Lemma build_leaf : forall e c a n a' b, do_build e c [] a = XOk (n, a') -> a_prev a = Some b ->
  nrng n = mkrange (b_rstart b) (b_rend b) /\
  (snd (build_call c) = [BStrbuf] -> leafy c = true -> text_of n = a_sb a) /\
  (snd (build_call c) = [BBlock] -> leafy c = true -> text_of n = slice (e_inp e) (b_bstart b) (b_bend b)) /\
  (snd (build_call c) = [BBlockTrim] -> leafy c = true -> text_of n = trim (slice (e_inp e) (b_bstart b) (b_bend b))).
Proof.
  intros e c a n a' b H HP. unfold do_build in H. rewrite HP in H. unfold leafy.
  destruct (build_call c) as [ty bps] eqn:EC. cbn [fst snd].
  destruct (eval_bparams _ _ _ _ _ _) as [[ps ops]|] eqn:EP; [|discriminate].
  destruct (terminal ty && nonempty (b_kids b)); [discriminate|].
  destruct (construct _ _ _ _ _) as [m|] eqn:EK; [|discriminate]. destruct (a_blocks a); [discriminate|].
  assert (m = n) as -> by congruence. clear H. unfold construct in EK. destruct (ctor_kinds ty); [|discriminate].
  destruct (_ && _); [|discriminate]. injection EK as <-. cbn [nrng text_of nflds].
  split; [reflexivity|]. repeat split; intros -> L; cbn in EP; injection EP as <- _; destruct ty; try discriminate L; reflexivity.
Qed.

Definition sets (l : list (action * nat)) (t : bytes) : Prop :=
  forall e a a', e_inp e = inp -> exec e l a = XOk a' -> a_sb a' = t.
Lemma sets_app : forall l1 t l2 u, sets l1 t -> appends l2 u -> sets (l1 ++ l2) (t ++ u).
Proof.
  intros l1 t l2 u H1 H2 e a a' HI H. rewrite exec_app in H.
  destruct (exec e l1 a) as [b| | |] eqn:E; cbn [xbind] in H; try discriminate.
  rewrite (H2 _ _ _ HI H), (H1 _ _ _ HI E). reflexivity.
Qed.
Lemma sets_reset : forall p, sets [(TDo [SStrReset], p)] [].
Proof. intros p e a a' _ H. cbn in H. injection H as <-. reflexivity. Qed.
Lemma sets_after : forall l1 l2 t, sets l2 t -> sets (l1 ++ l2) t.
Proof.
  intros l1 l2 t H2 e a a' HI H. rewrite exec_app in H.
  destruct (exec e l1 a) as [b| | |] eqn:E; cbn [xbind] in H; try discriminate. eapply H2; eauto.
Qed.

Definition closes_block (t : action) : Prop := t = TBlockEnd \/ t = TBlockMerge.
Definition built (c : ctor) (r : nat) : list (action * nat) := [(TDo [SLet LRet (RMk c [])], r)].

Lemma last_leaf : forall A e a a' a1 c r v, exec e A a = XOk a1 ->
  (exists ns, steps ns a a1 /\ Permutation (map leaf_view (filter is_leaf ns)) []) ->
  (forall n a2, do_build e c [] a1 = XOk (n, a2) -> leaf_view n = v) -> leafy c = true ->
  exec e (built c r) a1 = XOk a' -> 
  exists ns, steps ns a a' /\ Permutation (map leaf_view (filter is_leaf ns)) [v].
Proof.
  intros A e a a' a1 c r v HA [ns [S1 P1]] HV HL H. cbn in H.
  destruct (do_build e c [] a1) as [[n a3]| | |] eqn:E3; cbn in H; try discriminate. injection H as <-.
  exists (ns ++ [n]). split.
  - eapply steps_app; [exact S1|]. eapply st_grow; [eapply build_grown, E3|]. apply steps_keep, kept_eq; reflexivity.
  - rewrite filter_app, map_app. cbn [filter]. unfold is_leaf at 2. rewrite (build_type _ _ _ _ _ _ E3).
    unfold leafy in HL. rewrite HL. cbn [map]. rewrite (HV _ _ eq_refl). apply Permutation_app_tail with (tl := [v]) in P1. exact P1.
Qed.

Lemma strbuf_leaf : forall pre l close p q r c t, bal l 0 = Some 0 -> closes_block close ->
  makes (pre ++ [(TBlockStart, p)] ++ l ++ [(close, q)]) [] -> sets (pre ++ [(TBlockStart, p)] ++ l ++ [(close, q)]) t ->
  snd (build_call c) = [BStrbuf] -> leafy c = true ->
  makes ((pre ++ [(TBlockStart, p)] ++ l ++ [(close, q)]) ++ built c r) [(fst (build_call c), t, p, q)].
Proof.
  intros pre l close p q r c t HB HC HM HS EC HL e a a' HI H. rewrite exec_app in H.
  destruct (exec e (pre ++ [(TBlockStart, p)] ++ l ++ [(close, q)]) a) as [a1| | |] eqn:E; cbn [xbind] in H; try discriminate.
  eapply last_leaf; [exact E|exact (HM _ _ _ HI E)| |exact HL|exact H].
  intros n a2 E3. rewrite exec_app in E. destruct (exec e pre a) as [a0| | |] eqn:E0; cbn [xbind] in E; try discriminate.
  destruct (block_closed _ _ _ _ _ _ _ HB HC E) as (b & B1 & B2 & B3 & B4 & B5).
  destruct (build_leaf _ _ _ _ _ _ E3 B1) as (N1 & N2 & _). unfold leaf_view, leaf_at.
  rewrite N1, (N2 EC HL), (build_type _ _ _ _ _ _ E3). cbn [r_start r_end]. rewrite B4, B5.
  assert (a_sb a1 = t) as ->. { eapply (HS e a a1 HI). rewrite exec_app, E0. exact E. }
  f_equal; [f_equal|]; lia.
Qed.

Lemma block_leaf : forall p q r c, snd (build_call c) = [BBlock] -> leafy c = true ->
  makes ([(TBlockStart, p); (TBlockEnd, q)] ++ built c r) [(fst (build_call c), slice inp p q, p, q)].
Proof.
  intros p q r c EC HL e a a' HI H. rewrite exec_app in H.
  destruct (exec e [(TBlockStart, p); (TBlockEnd, q)] a) as [a1| | |] eqn:E; cbn [xbind] in H; try discriminate.
  assert (HM : makes [(TBlockStart, p); (TBlockEnd, q)] []) by (apply (makes_app [_] [] [_] []); apply makes_plain; reflexivity).
  eapply last_leaf; [exact E|exact (HM _ _ _ HI E)| |exact HL|exact H].
  intros n a2 E3.
  destruct (block_closed e [] p q a a1 TBlockEnd eq_refl (or_introl eq_refl) E) as (b & B1 & B2 & B3 & B4 & B5).
  destruct (build_leaf _ _ _ _ _ _ E3 B1) as (N1 & _ & N2 & _). unfold leaf_view, leaf_at.
  rewrite N1, (N2 EC HL), (build_type _ _ _ _ _ _ E3). cbn [r_start r_end]. rewrite B4, B5, B2, B3, HI.
  f_equal; [f_equal|]; lia.
Qed.

(** the name of a projection without one *)
Lemma alias_leaf : forall l p q r e a a', bal l 0 = Some 0 -> e_inp e = inp ->
    exec e (([(TBlockStart, p)] ++ l ++ [(TBlockMerge, q)]) ++
      [(TDo [SIfNotIdent (AVar 0) (SLet (LVar 1) (RMk K_block_identifier []))], r)]) a = XOk a' ->
  exists a1, exec e ([(TBlockStart, p)] ++ l ++ [(TBlockMerge, q)]) a = XOk a1 /\
    exists w ns, (w = [] \/ w = [(T_IDENTIFIER, trim (slice inp p q), p, q)]) /\ steps ns a1 a' /\
    Permutation (map leaf_view (filter is_leaf ns)) (map (leaf_at (offset (e_off e))) w).
Proof.
  intros l p q r e a a' HB HI H. rewrite exec_app in H.
  destruct (exec e ([(TBlockStart, p)] ++ l ++ [(TBlockMerge, q)]) a) as [a1| | |] eqn:E; cbn [xbind] in H; try discriminate.
  exists a1. split; [reflexivity|]. cbn [exec exec_action exec_stmts] in H.
  destruct (exec_stmt e (SIfNotIdent (AVar 0) (SLet (LVar 1) (RMk K_block_identifier []))) a1) as [a2| | |] eqn:E2; cbn in H; try discriminate.
  injection H as <-. cbn [exec_stmt eval_arg] in E2. destruct (get_slot 0 a1) as [g| | |]; cbn [xbind] in E2; try discriminate.
  match type of E2 with (if ?u then _ else _) = _ => destruct u end.
  - injection E2 as <-. exists [], []. split; [auto|]. split; [constructor|constructor].
  - cbn [eval_rhs eval_args xbind] in E2. destruct (do_build e K_block_identifier [] a1) as [[n a3]| | |] eqn:E3; cbn in E2; try discriminate.
    exists [(T_IDENTIFIER, trim (slice inp p q), p, q)], [n]. split; [auto|]. split.
    + eapply st_grow; [eapply build_grown, E3|]. apply steps_keep. eapply put_kept; eauto.
    + cbn [filter]. unfold is_leaf. rewrite (build_type _ _ _ _ _ _ E3). cbn [build_call fst leaf_type map].
      destruct (block_closed e l p q a a1 TBlockMerge HB (or_intror eq_refl) E) as (b & B1 & B2 & B3 & B4 & B5).
      destruct (build_leaf _ _ _ _ _ _ E3 B1) as (N1 & _ & _ & N2). unfold leaf_view, leaf_at.
      rewrite N1, (N2 eq_refl eq_refl), (build_type _ _ _ _ _ _ E3). cbn [r_start r_end build_call fst]. rewrite B4, B5, B2, B3, HI.
      rewrite (Nat.add_comm p), (Nat.add_comm q). apply Permutation_refl.
Qed.

Lemma ltrim_split : forall u, exists a, u = a ++ ltrim u /\ all_in space_chars a /\ (forall c v, ltrim u = c :: v -> ~ In c space_chars).
Proof.
  induction u as [|c u (a & A1 & A2 & A3)]; cbn [ltrim].
  - exists []. split; [reflexivity|]. split; [intros c []|discriminate].
  - destruct (is_space c) eqn:E.
    + exists (c :: a). split; [cbn [app]; f_equal; exact A1|]. split; [|exact A3]. intros d [<-|Hd]; [|auto].
      unfold is_space, in_class in E. apply existsb_exists in E. destruct E as [x [E1 E2]]. apply Ascii.eqb_eq in E2. subst x.
      cbn in E1 |- *. intuition.
    + exists []. split; [reflexivity|]. split; [intros d []|]. intros d v K. injection K as <- _. intros K.
      assert (is_space c = true); [|congruence]. unfold is_space, in_class. apply existsb_exists. exists c. split; [cbn in K |- *; intuition|apply Ascii.eqb_refl].
Qed.
Lemma trim_trimmed : forall u, trimmed u (trim u).
Proof.
  intros u. destruct (ltrim_split u) as (a & A1 & A2 & A3). destruct (ltrim_split (rev (ltrim u))) as (b & B1 & B2 & B3).
  assert (E : ltrim u = trim u ++ rev b).
  { unfold trim. rewrite <- rev_app_distr, <- B1, rev_involutive. reflexivity. }
  exists a, (rev b). split; [rewrite <- E; exact A1|]. split; [exact A2|].
  split; [intros c Hc; apply in_rev in Hc; auto|]. split.
  - intros c v K. apply (A3 c (v ++ rev b)). rewrite E, K. reflexivity.
  - intros c v K. apply (B3 c (rev v)). unfold trim in K. apply (f_equal (@rev _)) in K. rewrite rev_involutive, rev_app_distr in K. exact K.
Qed.
End Lists.

(** ** Matching *)
(** reading a part of a quoted string, with what follows *)
Inductive rds (q : ascii) (rest : bytes) : bytes -> bytes -> Prop :=
| rd_nil : rds q rest [] []
| rd_esc : forall c x u t, escape c = Some x -> rds q rest u t -> rds q rest ("\"%char :: c :: u) (x :: t)
| rd_chr : forall c u t, c <> q -> (c = "\"%char -> forall d w, u ++ rest = d :: w -> escape d = None) ->
    rds q rest u t -> rds q rest (c :: u) (c :: t).

Lemma rds_app : forall q u2 rest u1 t1, rds q (u2 ++ rest) u1 t1 -> forall t2, rds q rest u2 t2 -> rds q rest (u1 ++ u2) (t1 ++ t2).
Proof.
  intros q u2 rest u1 t1 H. induction H as [|c x u t E H IH|c u t N1 N2 H IH]; intros t2 H2; cbn.
  - exact H2.
  - apply rd_esc; auto.
  - apply rd_chr; auto. intros E d w. rewrite <- app_assoc. apply N2. exact E.
Qed.
Lemma rds_decode : forall q w u t, is_quote q -> rds q (q :: w) u t -> decode q u = Some t.
Proof.
  intros q w u t HQ H. induction H as [|c x u t E H IH|c u t N1 N2 H IH].
  - reflexivity.
  - cbn [decode]. rewrite (Ascii.eqb_refl). rewrite E, IH. reflexivity.
  - cbn [decode]. destruct (Ascii.eqb c "\") eqn:Ec.
    + apply Ascii.eqb_eq in Ec. specialize (N2 Ec). destruct u as [|d u].
      * specialize (N2 q w eq_refl). destruct HQ as [-> | ->]; discriminate N2.
      * specialize (N2 d (u ++ q :: w) eq_refl). rewrite N2. rewrite IH. reflexivity.
    + destruct (Ascii.eqb c q) eqn:Eq; [apply Ascii.eqb_eq in Eq; contradiction|]. rewrite IH. reflexivity.
Qed.

Section Match.
Variables (col : coloring) (off : position) (inp : bytes).
Notation runc := (run CG (get_of inp) (cprun col off)).
Notation cst := (pst action cuser).
Notation vis := (visits col off inp).
Notation over := (over inp).
Notation lexes := (lexes inp).

(** [s'] is reached over [u], and the thunks left behind append [t] *)
Definition lexed (s s' : cst) (u t : bytes) : Prop :=
  over s s' u /\ exists l, thunks s' = rev l ++ thunks s /\ lexes l t.

Lemma lexed_quiet : forall s s' u, over s s' u -> thunks s' = thunks s -> lexed s s' u [].
Proof. intros s s' u O T. split; [exact O|]. exists []. split; [exact T|apply lexes_nil]. Qed.
Lemma lexed_app : forall s s1 s2 u1 t1 u2 t2, lexed s s1 u1 t1 -> lexed s1 s2 u2 t2 -> lexed s s2 (u1 ++ u2) (t1 ++ t2).
Proof.
  intros s s1 s2 u1 t1 u2 t2 [O1 [l1 [T1 L1]]] [O2 [l2 [T2 L2]]]. split; [eapply over_app; eauto|].
  exists (l1 ++ l2). split; [rewrite T2, T1, rev_app_distr, app_assoc; reflexivity|apply lexes_app; auto].
Qed.

Lemma over_head : forall (s : cst) c w, skipn (pos s) inp = c :: w -> nth_error inp (pos s) = Some c.
Proof.
  intros s c w H. revert H. generalize (pos s). generalize inp as l. induction l as [|x l IH]; intros [|p] H; cbn in *; try discriminate.
  - congruence.
  - eauto.
Qed.

Lemma in_class_in : forall cs c, in_class cs c = true -> In c cs.
Proof.
  intros cs c H. unfold in_class in H. apply existsb_exists in H. destruct H as [x [H1 H2]]. apply Ascii.eqb_eq in H2. congruence.
Qed.
Lemma run_class : forall n cs s s', runc n (PClass cs) s = ROk s' -> exists c, over s s' [c] /\ In c cs /\ thunks s' = thunks s.
Proof.
  intros [|n] cs s s' H; [discriminate|]. cbn [Peg.run] in H. unfold get_of in H.
  destruct (nth_error inp (pos s)) as [c|] eqn:E; [|discriminate].
  destruct (in_class cs c) eqn:Ec; [|discriminate]. injection H as <-. exists c. split.
  - split; cbn; [lia|]. apply skipn_S. exact E.
  - split; [apply in_class_in; exact Ec|reflexivity].
Qed.
Lemma run_any : forall n s s', runc n PDot s = ROk s' -> exists c, over s s' [c] /\ thunks s' = thunks s /\ nth_error inp (pos s) = Some c.
Proof.
  intros [|n] s s' H; [discriminate|]. cbn [Peg.run] in H. unfold get_of in H.
  destruct (nth_error inp (pos s)) as [c|] eqn:E; [|discriminate]. injection H as <-. exists c. split; [|auto].
  split; cbn; [lia|]. apply skipn_S. exact E.
Qed.
Lemma run_err : forall n e q s s', runc n (PErr e q) s = ROk s' -> exists m, m < n /\ runc m e s = ROk s'.
Proof.
  intros [|n] e q s s' H; [discriminate|]. cbn [Peg.run] in H. exists n. split; [lia|].
  destruct (runc n e s) as [s1|s1| |] eqn:E; try discriminate; [exact H|]. destruct (run_pred _ _ _ s1); discriminate.
Qed.
Lemma run_query : forall n e s s', runc n (PQuery e) s = ROk s' ->
  exists m, m < n /\ (runc m e s = ROk s' \/ pos s' = pos s /\ thunks s' = thunks s).
Proof.
  intros [|n] e s s' H; [discriminate|]. cbn [Peg.run] in H. exists n. split; [lia|].
  destruct (runc n e s) as [s1|s1| |] eqn:E; try discriminate; [left; exact H|]. injection H as <-. right. auto.
Qed.
Lemma run_plus : forall n e s s', runc n (PPlus e) s = ROk s' ->
  exists m s1, m < n /\ runc m e s = ROk s1 /\ runc m (PStar e) s1 = ROk s'.
Proof.
  intros [|n] e s s' H; [discriminate|]. cbn [Peg.run] in H. destruct (runc n e s) as [s1|s1| |] eqn:E; try discriminate.
  exists n, s1. auto.
Qed.
Lemma run_not : forall n e s s', runc n (PNot e) s = ROk s' ->
  pos s' = pos s /\ thunks s' = thunks s /\ exists m s1, m < n /\ runc m e s = RFail s1.
Proof.
  intros [|n] e s s' H; [discriminate|]. cbn [Peg.run] in H. destruct (runc n e s) as [s1|s1| |] eqn:E; try discriminate.
  injection H as <-. split; [reflexivity|]. split; [reflexivity|]. exists n, s1. auto.
Qed.
Lemma fail_alt : forall n e1 e2 s s', runc n (e1 ∥ e2) s = RFail s' ->
  exists m s1, m < n /\ runc m e1 s = RFail s1 /\ runc m e2 (restore s s1) = RFail s'.
Proof.
  intros [|n] e1 e2 s s' H; [discriminate|]. cbn [Peg.run] in H. destruct (runc n e1 s) as [s1|s1| |] eqn:E; try discriminate.
  exists n, s1. auto.
Qed.
Lemma fail_rule : forall n r s s', runc n (PRule r) s = RFail s' -> exists m s1, m < n /\ runc m (CG r) s = RFail s1.
Proof.
  intros [|n] r s s' H; [discriminate|]. cbn [Peg.run] in H. destruct (runc n (CG r) s) as [s1|s1| |] eqn:E; try discriminate.
  exists n, s1. auto.
Qed.

(** the next byte *)
Definition at_ (s : cst) (i : nat) (c : ascii) : Prop := nth_error inp (pos s + i) = Some c.

Lemma fail_char : forall n c s s', runc n (PChar c) s = RFail s' -> ~ at_ s 0 c.
Proof.
  intros [|n] c s s' H; [discriminate|]. cbn [Peg.run] in H. unfold get_of, at_ in *. rewrite Nat.add_0_r.
  destruct (nth_error inp (pos s)) as [d|]; [|discriminate]. destruct (beq c d) eqn:E; [discriminate|]. intros K. injection K as ->.
  unfold beq in E. rewrite Ascii.eqb_refl in E. discriminate.
Qed.

(** repetitions that leave no thunks *)
Lemma star_chars : forall (P : ascii -> cst -> Prop) e,
  (forall n s s', runc n e s = ROk s' -> exists c, over s s' [c] /\ P c s /\ thunks s' = thunks s) ->
  forall n s s', runc n (PStar e) s = ROk s' ->
  exists u, over s s' u /\ thunks s' = thunks s /\
    (forall i c, nth_error u i = Some c -> exists s1, pos s1 = pos s + i /\ P c s1).
Proof.
  intros P e He. induction n as [n IH] using lt_wf_ind. intros s s' H. destruct n as [|n]; [discriminate|]. cbn [Peg.run] in H.
  destruct (runc n e s) as [s1|s1| |] eqn:E; try discriminate.
  - destruct (He _ _ _ E) as (c & C1 & C2 & C3). destruct (IH n (Nat.lt_succ_diag_r n) _ _ H) as (u & U1 & U2 & U3).
    exists (c :: u). split; [apply (over_app _ _ _ _ [c] u C1 U1)|]. split; [congruence|].
    intros [|i] d Hd; cbn in Hd; [injection Hd as <-; exists s; split; [lia|exact C2]|].
    destruct (U3 _ _ Hd) as (s2 & P1 & P2). exists s2. split; [|exact P2]. destruct C1 as [C1 _]. cbn in C1. lia.
  - injection H as <-. exists []. split; [apply over_nil; reflexivity|]. split; [reflexivity|]. intros [|i] c Hc; discriminate Hc.
Qed.
Lemma plus_chars : forall (P : ascii -> cst -> Prop) e,
  (forall n s s', runc n e s = ROk s' -> exists c, over s s' [c] /\ P c s /\ thunks s' = thunks s) ->
  forall n s s', runc n (PPlus e) s = ROk s' ->
  exists c u, over s s' (c :: u) /\ thunks s' = thunks s /\
    (forall i d, nth_error (c :: u) i = Some d -> exists s1, pos s1 = pos s + i /\ P d s1).
Proof.
  intros P e He n s s' H. apply run_plus in H. destruct H as (m & s1 & _ & H1 & H2).
  destruct (He _ _ _ H1) as (c & C1 & C2 & C3). destruct (star_chars P e He _ _ _ H2) as (u & U1 & U2 & U3).
  exists c, u. split; [apply (over_app _ _ _ _ [c] u C1 U1)|]. split; [congruence|].
  intros [|i] d Hd; cbn in Hd; [injection Hd as <-; exists s; split; [lia|exact C2]|].
  destruct (U3 _ _ Hd) as (s2 & P1 & P2). exists s2. split; [|exact P2]. destruct C1 as [C1 _]. cbn in C1. lia.
Qed.
Lemma run_parts : forall n s s', runc n (PStar (PRule R_sym_part)) s = ROk s' ->
  exists u, over s s' u /\ thunks s' = thunks s /\ all_in part_chars u.
Proof.
  intros n s s' H. apply (star_chars (fun c _ => In c part_chars)) in H.
  - destruct H as (u & U1 & U2 & U3). exists u. split; [exact U1|]. split; [exact U2|]. intros c Hc.
    apply In_nth_error in Hc. destruct Hc as [i Hi]. destruct (U3 _ _ Hi) as (_ & _ & K). exact K.
  - clear. intros n s s' H. apply run_rule in H. destruct H as [m [_ H]]. apply run_class in H.
    destruct H as (c & C1 & C2 & C3). exists c. auto.
Qed.
Lemma run_classes : forall cs n s s', runc n (PStar (PClass cs)) s = ROk s' ->
  exists u, over s s' u /\ thunks s' = thunks s /\ all_in cs u.
Proof.
  intros cs n s s' H. apply (star_chars (fun c _ => In c cs)) in H.
  - destruct H as (u & U1 & U2 & U3). exists u. split; [exact U1|]. split; [exact U2|]. intros c Hc.
    apply In_nth_error in Hc. destruct Hc as [i Hi]. destruct (U3 _ _ Hi) as (_ & _ & K). exact K.
  - clear. intros n s s' H. apply run_class in H. destruct H as (c & C1 & C2 & C3). exists c. auto.
Qed.
Lemma run_opt_class : forall cs n s s', runc n (PQuery (PClass cs)) s = ROk s' ->
  exists u, over s s' u /\ thunks s' = thunks s /\ opt cs u.
Proof.
  intros cs n s s' H. apply run_query in H. destruct H as [m [_ [H|[H1 H2]]]].
  - apply run_class in H. destruct H as (c & C1 & C2 & C3). exists [c]. split; [exact C1|]. split; [exact C3|]. right. eauto.
  - exists []. split; [apply over_nil; exact H1|]. split; [exact H2|]. left. reflexivity.
Qed.

(** *** Escapes *)
Lemma esc_alt : forall n b t e2 s s1 d, runc n (PStr ["\"; b]%char ⋅ PAct t ∥ e2) s = RFail s1 ->
  at_ s 0 "\" -> at_ s 1 d -> d <> b /\ exists m s2, runc m e2 s2 = RFail s1 /\ pos s2 = pos s.
Proof.
  intros n b t e2 s s1 d H H0 H1. apply fail_alt in H. destruct H as (m & s2 & _ & F1 & F2). split.
  - intros ->. destruct m as [|m]; [discriminate|]. cbn [Peg.run] in F1. destruct m as [|m]; [discriminate|]. cbn [Peg.run] in F1.
    unfold at_ in *. rewrite Nat.add_0_r in H0. rewrite Nat.add_1_r in H1.
    cbn [match_str] in F1. unfold get_of in F1. rewrite H0 in F1. cbn in F1. cbn in H1. rewrite H1 in F1.
    unfold beq in F1. rewrite Ascii.eqb_refl in F1. discriminate F1.
  - exists m, (restore s s2). split; [exact F2|reflexivity].
Qed.
Lemma esc_last : forall n b t s s1 d, runc n (PStr ["\"; b]%char ⋅ PAct t) s = RFail s1 ->
  at_ s 0 "\" -> at_ s 1 d -> d <> b.
Proof.
  intros n b t s s1 d F1 H0 H1 ->. destruct n as [|m]; [discriminate|]. cbn [Peg.run] in F1. destruct m as [|m]; [discriminate|]. cbn [Peg.run] in F1.
  unfold at_ in *. rewrite Nat.add_0_r in H0. rewrite Nat.add_1_r in H1.
  cbn [match_str] in F1. unfold get_of in F1. rewrite H0 in F1. cbn in F1. cbn in H1. rewrite H1 in F1.
  unfold beq in F1. rewrite Ascii.eqb_refl in F1. discriminate F1.
Qed.
Definition esc_exp : cexp :=
  PStr ["\"; "a"]%char ⋅ PAct (TDo [SStrAppend ["007"%char]]) ∥ PStr ["\"; "b"]%char ⋅
  PAct (TDo [SStrAppend ["008"%char]]) ∥ PStr ["\"; "f"]%char ⋅
  PAct (TDo [SStrAppend ["012"%char]]) ∥ PStr ["\"; "n"]%char ⋅
  PAct (TDo [SStrAppend ["010"%char]]) ∥ PStr ["\"; "r"]%char ⋅
  PAct (TDo [SStrAppend ["013"%char]]) ∥ PStr ["\"; "t"]%char ⋅
  PAct (TDo [SStrAppend ["009"%char]]) ∥ PStr ["\"; "v"]%char ⋅
  PAct (TDo [SStrAppend ["011"%char]]) ∥ PStr ["\"; "\"]%char ⋅
  PAct (TDo [SStrAppend (B "\")]) ∥ PStr ["\"; "'"]%char ⋅ PAct (TDo [SStrAppend (B "'")]) ∥
  PStr ["\"; """"]%char ⋅ PAct (TDo [SStrAppend (B """")]) ∥ PStr ["\"; "?"]%char ⋅
  PAct (TDo [SStrAppend (B "?")]).
Lemma fail_esc : forall n s s1 d, runc n (PRule R_escaped_char) s = RFail s1 -> at_ s 0 "\" -> at_ s 1 d -> escape d = None.
Proof.
  intros n s s1 d H H0 H1. apply fail_rule in H. destruct H as (m & s2 & _ & H). change (CG R_escaped_char) with esc_exp in H.
  unfold esc_exp in H.
  do 10 (eapply esc_alt in H; [|exact H0|exact H1]; let N := fresh "N" in let Q := fresh "Q" in
    destruct H as (N & ? & ? & H & Q); unfold at_ in H0, H1; rewrite <- Q in H0, H1).
  pose proof (esc_last _ _ _ _ _ _ H H0 H1) as NL_.
  clear - N N0 N1 N2 N3 N4 N5 N6 N7 N8 NL_.
  destruct d as [[|] [|] [|] [|] [|] [|] [|] [|]]; try reflexivity; exfalso; congruence.
Qed.

Lemma run_esc1 : forall n b x s s', runc n (PStr ["\"; b]%char ⋅ PAct (TDo [SStrAppend [x]])) s = ROk s' ->
  escape b = Some x -> exists c y, escape c = Some y /\ lexed s s' ["\"%char; c] [y].
Proof.
  intros n b x s s' H HE. apply run_seq in H. destruct H as (m & s1 & _ & H1 & H2). apply run_str in H1. destruct H1 as [O1 T1].
  apply run_act in H2. destruct H2 as [O2 T2]. exists b, x. split; [exact HE|]. split.
  - destruct O1 as [A1 A2]. split; [rewrite O2; exact A1|rewrite O2; exact A2].
  - exists [(TDo [SStrAppend [x]], pos s1)]. split; [rewrite T2, T1; reflexivity|apply lexes_text].
Qed.
Lemma run_esc : forall n s s', runc n (PRule R_escaped_char) s = ROk s' ->
  exists c x, escape c = Some x /\ lexed s s' ["\"%char; c] [x].
Proof.
  intros n s s' H. apply run_rule in H. destruct H as (m & _ & H). change (CG R_escaped_char) with esc_exp in H. unfold esc_exp in H.
  do 10 (apply run_alt in H; destruct H as (? & _ & [H|(? & _ & H)]); [apply (run_esc1 _ _ _ _ _ H eq_refl)|]).
  apply (run_esc1 _ _ _ _ _ H eq_refl).
Qed.
Lemma over_eq : forall s s' s1 s1' u, over s s' u -> pos s1 = pos s -> pos s1' = pos s' -> over s1 s1' u.
Proof. intros s s' s1 s1' u [A1 A2] E1 E2. split; rewrite E1, E2; assumption. Qed.

(** a block whose text is appended *)
Definition block_exp (e : cexp) : cexp := PPred (QDo TBlockStart) ⋅ e ⋅ PPred (QDo TBlockEnd) ⋅ PAct (TDo [SStrBlock]).
Lemma run_block_exp : forall n e s s' (P : cst -> bytes -> Prop),
  (forall m s s', runc m e s = ROk s' -> exists u, over s s' u /\ thunks s' = thunks s /\ P s u) ->
  (forall s1 s2 u, pos s1 = pos s2 -> P s1 u -> P s2 u) ->
  runc n (block_exp e) s = ROk s' -> exists u, lexed s s' u u /\ P s u.
Proof.
  intros n e s s' P He HP H. unfold block_exp in H.
  apply run_seq in H. destruct H as (m1 & sa & _ & Ha & H). apply run_pdo in Ha. destruct Ha as [Oa Ta].
  apply run_seq in H. destruct H as (m2 & sb & _ & Hb & H). destruct (He _ _ _ Hb) as (u & O & T & HU).
  apply run_seq in H. destruct H as (m3 & sc & _ & Hc & H). apply run_pdo in Hc. destruct Hc as [Oc Tc].
  apply run_act in H. destruct H as [Od Td].
  assert (O' : over s s' u) by (eapply over_eq; [exact O| |]; congruence).
  exists u. split; [split; [exact O'|]|eapply HP; [|exact HU]; congruence].
  exists [(TBlockStart, pos s); (TBlockEnd, pos s'); (TDo [SStrBlock], pos s')]. split.
  - rewrite Td, Tc, T, Ta. replace (pos sc) with (pos s') by congruence. replace (pos sb) with (pos s') by congruence. reflexivity.
  - rewrite <- (over_slice inp _ _ _ O'). apply lexes_block.
Qed.

Definition quoted_body (q : ascii) : cexp :=
  PRule R_escaped_char ∥ block_exp (PRule R_EOL) ∥
  block_exp (PPlus (PNot (PChar q ∥ PRule R_escaped_char ∥ PRule R_EOL) ⋅ PDot)).

Definition plain_at (q : ascii) (c : ascii) (s : cst) : Prop :=
  c <> q /\ (c = "\"%char -> forall d, at_ s 1 d -> escape d = None).

Lemma run_plain : forall q n s s', runc n (PNot (PChar q ∥ PRule R_escaped_char ∥ PRule R_EOL) ⋅ PDot) s = ROk s' ->
  exists c, over s s' [c] /\ plain_at q c s /\ thunks s' = thunks s.
Proof.
  intros q n s s' H. apply run_seq in H. destruct H as (m & s1 & _ & H1 & H2).
  apply run_not in H1. destruct H1 as (P1 & T1 & m1 & s2 & _ & F).
  apply run_any in H2. destruct H2 as (c & O & T & E). exists c.
  split; [eapply over_eq; [exact O| |reflexivity]; congruence|]. split; [|congruence].
  rewrite P1 in E. apply fail_alt in F. destruct F as (m2 & s3 & _ & F1 & F). apply fail_alt in F. destruct F as (m3 & s4 & _ & F2 & _). split.
  - intros ->. apply fail_char in F1. apply F1. unfold at_. rewrite Nat.add_0_r. exact E.
  - intros -> d Hd. eapply fail_esc; [exact F2| |].
    + unfold at_. cbn. rewrite Nat.add_0_r. exact E.
    + exact Hd.
Qed.

Lemma skipn_nth : forall (l : bytes) p c w, skipn p l = c :: w -> nth_error l p = Some c.
Proof. induction l as [|x l IH]; intros [|p] c w H; cbn in *; try discriminate; [congruence|eauto]. Qed.

Lemma plain_rds : forall q u s s', over s s' u ->
  (forall i c, nth_error u i = Some c -> exists s1, pos s1 = pos s + i /\ plain_at q c s1) ->
  rds q (skipn (pos s') inp) u u.
Proof.
  intros q u. induction u as [|c u IH]; intros s s' [O1 O2] HU; [constructor|].
  destruct (HU 0 c eq_refl) as (s1 & P1 & [N1 N2]).
  assert (K : skipn (S (pos s)) inp = u ++ skipn (pos s') inp).
  { clear - O2. revert O2. generalize (skipn (pos s') inp). intros r. generalize (pos s). generalize inp as l.
    induction l as [|x l IH]; intros [|p] H; cbn in *; try discriminate; [congruence|]. apply IH. exact H. }
  apply rd_chr; [exact N1| |].
  - intros E d w Hd. apply (N2 E). unfold at_. rewrite P1, Nat.add_0_r, Nat.add_1_r. rewrite <- K in Hd. eapply skipn_nth; eauto.
  - apply (IH (advance s) s').
    + split; cbn; [cbn in O1; lia|exact K].
    + intros i d Hd. destruct (HU (S i) d Hd) as (s2 & P2 & P3). exists s2. split; [cbn; lia|exact P3].
Qed.

Lemma run_quoted_body : forall q n s s', is_quote q -> runc n (quoted_body q) s = ROk s' ->
  exists u t, lexed s s' u t /\ rds q (skipn (pos s') inp) u t.
Proof.
  intros q n s s' HQ H. unfold quoted_body in H. apply run_alt in H. destruct H as (m & _ & [H|(s1 & _ & H)]).
  - apply run_esc in H. destruct H as (c & x & E & L). exists ["\"%char; c], [x]. split; [exact L|].
    apply rd_esc; [exact E|constructor].
  - apply run_alt in H. destruct H as (m1 & _ & [H|(s2 & _ & H)]).
    + apply (run_block_exp _ _ _ _ (fun _ u => u = [NL] \/ u = [CR; NL])) in H.
      * destruct H as (u & L & HU). exists u, u. split; [exact L|].
        destruct HU as [-> | ->]; repeat apply rd_chr; try constructor; try (intros E; discriminate E);
          destruct HQ as [-> | ->]; discriminate.
      * intros m2 s3 s4 K. apply run_eol in K. destruct K as (t & T1 & T2 & T3). exists t. auto.
      * auto.
    + apply (run_block_exp _ _ _ _ (fun s u => forall i c, nth_error u i = Some c -> exists s1, pos s1 = pos s + i /\ plain_at q c s1)) in H.
      * destruct H as (u & L & HU). exists u, u. split; [exact L|]. destruct L as [O _]. eapply plain_rds; [exact O|exact HU].
      * intros m2 s3 s4 K. apply (plus_chars (plain_at q)) in K; [|apply run_plain].
        destruct K as (c & u & U1 & U2 & U3). exists (c :: u). auto.
      * intros s3 s4 u E K i c Hc. destruct (K i c Hc) as (s5 & A1 & A2). exists s5. split; [congruence|exact A2].
Qed.

Lemma run_quoted_star : forall q n s s', is_quote q -> runc n (PStar (quoted_body q)) s = ROk s' ->
  exists u t, lexed s s' u t /\ rds q (skipn (pos s') inp) u t.
Proof.
  intros q. induction n as [n IH] using lt_wf_ind. intros s s' HQ H. destruct n as [|n]; [discriminate|]. cbn [Peg.run] in H.
  destruct (runc n (quoted_body q) s) as [s1|s1| |] eqn:E; try discriminate.
  - destruct (run_quoted_body _ _ _ _ HQ E) as (u1 & t1 & L1 & R1).
    destruct (IH n (Nat.lt_succ_diag_r n) _ _ HQ H) as (u2 & t2 & L2 & R2).
    exists (u1 ++ u2), (t1 ++ t2). split; [eapply lexed_app; eauto|]. eapply rds_app; [|exact R2].
    destruct L2 as [[_ O2] _]. rewrite <- O2. exact R1.
  - injection H as <-. exists [], []. split; [apply lexed_quiet; [apply over_nil; reflexivity|reflexivity]|constructor].
Qed.

Lemma run_quoted1 : forall q l n s s', is_quote q ->
  runc n (PChar q ⋅ PStar (quoted_body q) ⋅ PErr (PChar q) (QErr l)) s = ROk s' ->
  exists u t, lexed s s' u t /\ quoted_text u t.
Proof.
  intros q l n s s' HQ H. apply run_seq in H. destruct H as (m & s1 & _ & H1 & H). apply run_char in H1. destruct H1 as [O1 T1].
  apply run_seq in H. destruct H as (m2 & s2 & _ & H2 & H). destruct (run_quoted_star _ _ _ _ HQ H2) as (u & t & L & R).
  apply run_err in H. destruct H as (m3 & _ & H). apply run_char in H. destruct H as [O3 T3].
  exists ([q] ++ u ++ [q]), ([] ++ t ++ []). split.
  - apply (lexed_app s s1 s'); [apply lexed_quiet; assumption|]. apply (lexed_app s1 s2 s'); [exact L|apply lexed_quiet; assumption].
  - exists q, u. split; [exact HQ|]. split; [reflexivity|]. rewrite app_nil_r. destruct O3 as [_ O3]. rewrite O3 in R.
    eapply rds_decode; eauto.
Qed.
Lemma run_quoted : forall n s s', runc n (PRule R_quoted) s = ROk s' -> exists u t, lexed s s' u t /\ quoted_text u t.
Proof.
  intros n s s' H. apply run_rule in H. destruct H as (m & _ & H).
  change (CG R_quoted) with ((PRule R_single_quoted : cexp) ∥ PRule R_double_quoted) in H.
  apply run_alt in H. destruct H as (m1 & _ & [H|(s1 & _ & H)]); apply run_rule in H; destruct H as (m2 & _ & H).
  - eapply (run_quoted1 "'"%char); [left; reflexivity|exact H].
  - destruct (run_quoted1 """"%char _ _ _ _ (or_intror eq_refl) H) as (u & t & L & Q). exists u, t. auto.
Qed.

(** *** White space and comments *)
Definition tame_rule (r : rule) : bool :=
  match r with
  | R_sp | R_hsp | R_WS | R_HWS | R_EOL | R_EOF | R_comment | R_line_comment | R_block_comment | R__line_start_
  | R_DOT | R_RIGHT_CURLY | R_SEMICOLON | R_sym_start | R_sym_part => true
  | _ => false
  end.
Definition tame_act (t : action) : bool := sb_free t && forallb (fun c => negb (leafy c)) (ctors t).
Fixpoint tame (x : cexp) : bool :=
  match x with
  | PRule r => tame_rule r
  | PSeq e1 e2 | PAlt e1 e2 => tame e1 && tame e2
  | PStar e1 | PPlus e1 | PQuery e1 | PErr e1 _ => tame e1
  | PAct t | PPred (QDo t) => tame_act t
  | _ => true
  end.
Lemma rules_tame : forall r, tame_rule r = true -> tame (CG r) = true.
Proof. intros r H. destruct r; try discriminate H; vm_compute; reflexivity. Qed.

Lemma tame_does : forall t p, tame_act t = true -> makes inp [(t, p)] [] /\ appends inp [(t, p)] [].
Proof.
  intros t p H. apply andb_prop in H. destruct H as [H1 H2]. split; [apply makes_plain; exact H2|apply appends_free; exact H1].
Qed.
Lemma emits_tame : forall e l, emits CG e l -> tame e = true -> makes inp l [] /\ appends inp l [].
Proof.
  assert (N : makes inp [] [] /\ appends inp [] []) by (split; [apply makes_nil|apply appends_nil]).
  assert (A : forall l1 l2, makes inp l1 [] /\ appends inp l1 [] -> makes inp l2 [] /\ appends inp l2 [] ->
    makes inp (l1 ++ l2) [] /\ appends inp (l1 ++ l2) []).
  { intros l1 l2 [A1 A2] [B1 B2]. split; [apply (makes_app _ _ [] _ [] A1 B1)|apply (appends_app _ _ [] _ [] A2 B2)]. }
  intros e l H. induction H; cbn [tame]; intros HT; try exact N;
    try (destruct (andb_prop _ _ HT) as [H1 H2]); auto using tame_does.
  apply IHemits, rules_tame. exact HT.
Qed.
Lemma run_tame : forall n e s s' u, tame e = true -> balx e 0 = Some 0 -> runc n e s = ROk s' -> over s s' u -> lexed s s' u [].
Proof.
  intros n e s s' u HT HB H O. destruct (run_leaves _ _ _ _ (adapted_CG _ _ _) _ _ _ _ H) as [l [L1 L2]]. split; [exact O|].
  exists l. split; [exact L2|]. destruct (emits_tame _ _ L1 HT) as [M1 M2]. split; [exact M1|]. split; [exact M2|]. eapply emits_bal; eauto.
Qed.

Lemma run_gap_star : forall n s s', pos s <= List.length inp ->
  runc n (PStar ((PRule R_WS : cexp) ∥ PRule R_comment)) s = ROk s' -> exists u, over s s' u /\ gap u.
Proof.
  induction n as [n IH] using lt_wf_ind. intros s s' Hp H. destruct n as [|n]; [discriminate|]. cbn [Peg.run] in H.
  destruct (runc n ((PRule R_WS : cexp) ∥ PRule R_comment) s) as [s1|s1| |] eqn:E; try discriminate.
  - pose proof (match_bound col off inp _ _ _ _ Hp E) as Hp1.
    destruct (IH n (Nat.lt_succ_diag_r n) _ _ Hp1 H) as (u & O & G).
    apply run_alt in E. destruct E as (m & _ & [E|(s2 & _ & E)]).
    + apply run_ws in E. destruct E as (w & W1 & W2 & _). exists (w ++ u). split; [eapply over_app; eauto|].
      clear - W2 G. unfold SafeSpec.all_blank in W2. induction W2 as [|c w Hc _ IH]; [exact G|]. cbn. apply gap_blank; [|exact IH].
      unfold SafeSpec.is_blank in Hc. cbn. intuition.
    + apply run_rule in E. destruct E as (m1 & _ & E).
      change (CG R_comment) with ((PRule R_line_comment : cexp) ∥ PRule R_block_comment) in E.
      apply run_alt in E. destruct E as (m2 & _ & [E|(s3 & _ & E)]); apply run_rule in E; destruct E as (m3 & _ & E).
      * destruct (line_rule col off inp m3 (restore s s2) s1 Hp E) as (t & (NT & T) & _).
        assert (Oc : exists w, over (restore s s2) s1 w) by (eapply over_any; [exact Hp|exact E]). destruct Oc as [w Ow].
        rewrite (over_slice inp _ _ _ Ow) in T.
        exists (w ++ u). split; [eapply over_app; [exact Ow|exact O]|].
        destruct T as [[-> T]|[-> |[-> _]]].
        { assert (u = []) as ->.
          { destruct O as [_ O]. rewrite T in O. destruct u; [reflexivity|discriminate O]. }
          rewrite app_nil_r. rewrite <- (app_nil_r t). apply gap_line; auto. }
        { change (gap ((B "//" ++ t ++ [CR; NL]) ++ u)); replace ((B "//" ++ t ++ [CR; NL]) ++ u) with (B "//" ++ (t ++ [CR]) ++ (NL :: u)) by (rewrite <- !app_assoc; reflexivity).
          apply (gap_line (t ++ [CR]) (NL :: u)); [|right; exists u; reflexivity|apply gap_blank; [cbn; auto|exact G]].
          rewrite in_app_iff. intros [K|[K|[]]]; [contradiction|discriminate K]. }
        { change (gap ((B "//" ++ t ++ [NL]) ++ u)); replace ((B "//" ++ t ++ [NL]) ++ u) with (B "//" ++ t ++ (NL :: u)) by (rewrite <- !app_assoc; reflexivity).
          apply (gap_line t (NL :: u)); [exact NT|right; exists u; reflexivity|apply gap_blank; [cbn; auto|exact G]]. }
      * destruct (block_rule col off inp m3 (restore (restore s s2) s3) s1 Hp E) as (t & (T & NT) & _).
        assert (Oc : exists w, over (restore (restore s s2) s3) s1 w) by (eapply over_any; [exact Hp|exact E]). destruct Oc as [w Ow].
        rewrite (over_slice inp _ _ _ Ow) in T. subst w.
        exists ((B "/*" ++ t ++ B "*/") ++ u). split; [eapply over_app; [exact Ow|exact O]|].
        replace ((B "/*" ++ t ++ B "*/") ++ u) with (B "/*" ++ t ++ B "*/" ++ u) by (rewrite <- !app_assoc; reflexivity).
        apply gap_block; [exact NT|exact G].
  - injection H as <-. exists []. split; [apply over_nil; reflexivity|constructor].
Qed.

Lemma run_gap : forall n s s', pos s <= List.length inp -> runc n (PRule R_sp) s = ROk s' ->
  exists u, lexed s s' u [] /\ gap u.
Proof.
  intros n s s' Hp H. assert (H0 := H). apply run_rule in H. destruct H as (m & _ & H).
  change (CG R_sp) with (PStar ((PRule R_WS : cexp) ∥ PRule R_comment)) in H.
  destruct (run_gap_star _ _ _ Hp H) as (u & O & G). exists u. split; [|exact G].
  eapply run_tame; [| |exact H0|exact O]; reflexivity.
Qed.

(** *** Names and numbers *)
Lemma block_wrap : forall (s sa sb sc s' : cst) u, pos sa = pos s -> thunks sa = (TBlockStart, pos s) :: thunks s ->
  over sa sb u -> thunks sb = thunks sa -> pos sc = pos sb -> thunks sc = (TBlockEnd, pos sb) :: thunks sb ->
  pos s' = pos sc -> thunks s' = (TDo [SStrBlock], pos sc) :: thunks sc -> lexed s s' u u.
Proof.
  intros s sa sb sc s' u Oa Ta O T Oc Tc Od Td.
  assert (O' : over s s' u) by (eapply over_eq; [exact O| |]; congruence).
  split; [exact O'|].
  exists [(TBlockStart, pos s); (TBlockEnd, pos s'); (TDo [SStrBlock], pos s')]. split.
  - rewrite Td, Tc, T, Ta. replace (pos sc) with (pos s') by congruence. replace (pos sb) with (pos s') by congruence. reflexivity.
  - rewrite <- (over_slice inp _ _ _ O'). apply lexes_block.
Qed.

Lemma run_sym_start : forall n s s', runc n (PRule R_sym_start) s = ROk s' ->
  exists c, over s s' [c] /\ In c start_chars /\ thunks s' = thunks s.
Proof. intros n s s' H. apply run_rule in H. destruct H as (m & _ & H). apply run_class in H. exact H. Qed.

Lemma run_name : forall n s s', runc n (PRule R_symbolic_name) s = ROk s' -> exists u t, lexed s s' u t /\ name_text u t.
Proof.
  intros n s s' H. apply run_rule in H. destruct H as (m & _ & H).
  change (CG R_symbolic_name) with ((PRule R_unescaped_symbolic_name : cexp) ∥ PRule R_escaped_symbolic_name) in H.
  apply run_alt in H. destruct H as (m1 & _ & [H|(s1 & _ & H)]); apply run_rule in H; destruct H as (m2 & _ & H).
  - change (CG R_unescaped_symbolic_name) with (PPred (QDo TBlockStart) ⋅ PRule R_sym_start ⋅ PStar (PRule R_sym_part) ⋅
      PPred (QDo TBlockEnd) ⋅ PAct (TDo [SStrBlock]) : cexp) in H.
    apply run_seq in H. destruct H as (k1 & sa & _ & Ha & H). apply run_pdo in Ha. destruct Ha as [Oa Ta].
    apply run_seq in H. destruct H as (k2 & sb & _ & Hb & H). apply run_sym_start in Hb. destruct Hb as (c & C1 & C2 & C3).
    apply run_seq in H. destruct H as (k3 & sc & _ & Hc & H). apply run_parts in Hc. destruct Hc as (v & V1 & V2 & V3).
    apply run_seq in H. destruct H as (k4 & sd & _ & Hd & H). apply run_pdo in Hd. destruct Hd as [Od Td].
    apply run_act in H. destruct H as [Oe Te].
    exists (c :: v), (c :: v). split.
    + eapply (block_wrap s sa sc sd s'); eauto; [apply (over_app _ _ _ _ [c] v C1 V1)|congruence].
    + left. split; [reflexivity|]. exists c, v. auto.
  - change (CG R_escaped_symbolic_name) with (PChar "`"%char ⋅ PPred (QDo TBlockStart) ⋅ PStar (PNot (PChar "`"%char) ⋅ PDot) ⋅
      PPred (QDo TBlockEnd) ⋅ PErr (PChar "`"%char) (QErr (B "`")) ⋅ PAct (TDo [SStrBlock]) : cexp) in H.
    apply run_seq in H. destruct H as (k0 & s0 & _ & H0 & H). apply run_char in H0. destruct H0 as [O0 T0].
    apply run_seq in H. destruct H as (k1 & sa & _ & Ha & H). apply run_pdo in Ha. destruct Ha as [Oa Ta].
    apply run_seq in H. destruct H as (k2 & sb & _ & Hb & H).
    apply (star_chars (fun c _ => c <> "`"%char)) in Hb.
    2:{ clear. intros n s s' H. apply run_seq in H. destruct H as (m & s1 & _ & H1 & H2).
        apply run_not in H1. destruct H1 as (P1 & T1 & m1 & s2 & _ & F).
        apply run_any in H2. destruct H2 as (c & O & T & E). exists c.
        split; [eapply over_eq; [exact O| |reflexivity]; congruence|]. split; [|congruence].
        intros ->. apply fail_char in F. apply F. unfold at_. rewrite Nat.add_0_r. congruence. }
    destruct Hb as (u & U1 & U2 & U3).
    apply run_seq in H. destruct H as (k3 & sc & _ & Hc & H). apply run_pdo in Hc. destruct Hc as [Oc Tc].
    apply run_seq in H. destruct H as (k4 & sd & _ & Hd & H). apply run_err in Hd. destruct Hd as (k5 & _ & Hd).
    apply run_char in Hd. destruct Hd as [Od Td]. apply run_act in H. destruct H as [Oe Te].
    exists ("`"%char :: u ++ ["`"%char]), u. split.
    + change ("`"%char :: u ++ ["`"%char]) with (["`"%char] ++ u ++ ["`"%char]). split.
      * eapply over_app; [eapply over_eq; [exact O0|reflexivity|reflexivity]|]. eapply over_app; [eapply over_eq; [exact U1| |reflexivity]; congruence|].
        eapply over_eq; [exact Od|congruence|congruence].
      * exists [(TBlockStart, pos sa); (TBlockEnd, pos sb); (TDo [SStrBlock], pos sd)]. split.
        { rewrite Te, Td, Tc, U2, Ta, T0. cbn [thunks restore]. replace (pos s0) with (pos sa) by congruence. reflexivity. }
        { rewrite <- (over_slice inp _ _ _ U1). apply lexes_block. }
    + right. split; [reflexivity|]. intros K. apply In_nth_error in K. destruct K as [i K]. destruct (U3 _ _ K) as (_ & _ & N). apply N. reflexivity.
Qed.

Lemma run_param_name : forall n s s', runc n (PRule R_parameter_name) s = ROk s' -> exists u t, lexed s s' u t /\ param_name_text u t.
Proof.
  intros n s s' H. apply run_rule in H. destruct H as (m & _ & H).
  change (CG R_parameter_name) with ((PRule R_symbolic_name : cexp) ∥ PPred (QDo TBlockStart) ⋅ PClass (B "123456789") ⋅
    PStar (PClass (B "0123456789")) ⋅ PPred (QDo TBlockEnd) ⋅ PAct (TDo [SStrBlock])) in H.
  apply run_alt in H. destruct H as (m1 & _ & [H|(s1 & _ & H)]).
  - apply run_name in H. destruct H as (u & t & L & N). exists u, t. split; [exact L|]. left. exact N.
  - apply run_seq in H. destruct H as (k1 & sa & _ & Ha & H). apply run_pdo in Ha. destruct Ha as [Oa Ta].
    apply run_seq in H. destruct H as (k2 & sb & _ & Hb & H). apply run_class in Hb. destruct Hb as (c & C1 & C2 & C3).
    apply run_seq in H. destruct H as (k3 & sc & _ & Hc & H). apply run_classes in Hc. destruct Hc as (v & V1 & V2 & V3).
    apply run_seq in H. destruct H as (k4 & sd & _ & Hd & H). apply run_pdo in Hd. destruct Hd as [Od Td].
    apply run_act in H. destruct H as [Oe Te].
    exists (c :: v), (c :: v). split.
    + eapply (block_wrap s sa sc sd s'); eauto; [apply (over_app _ _ _ _ [c] v C1 V1)|congruence].
    + right. split; [reflexivity|]. exists c, v. auto.
Qed.

Lemma run_integer : forall n s s', runc n (PRule R_integer_string) s = ROk s' -> exists u t, lexed s s' u t /\ number_text u t.
Proof.
  intros n s s' H. apply run_rule in H. destruct H as (m & _ & H).
  change (CG R_integer_string) with (PPred (QDo TBlockStart) ⋅ PClass (B "0123456789") ⋅
    PStar (PRule R_sym_part) ⋅ PPred (QDo TBlockEnd) ⋅ PAct (TDo [SStrBlock]) : cexp) in H.
  apply run_seq in H. destruct H as (k1 & sa & _ & Ha & H). apply run_pdo in Ha. destruct Ha as [Oa Ta].
  apply run_seq in H. destruct H as (k2 & sb & _ & Hb & H). apply run_class in Hb. destruct Hb as (c & C1 & C2 & C3).
  apply run_seq in H. destruct H as (k3 & sc & _ & Hc & H). apply run_parts in Hc. destruct Hc as (v & V1 & V2 & V3).
  apply run_seq in H. destruct H as (k4 & sd & _ & Hd & H). apply run_pdo in Hd. destruct Hd as [Od Td].
  apply run_act in H. destruct H as [Oe Te].
  exists (c :: v), (c :: v). split.
  - eapply (block_wrap s sa sc sd s'); eauto; [apply (over_app _ _ _ _ [c] v C1 V1)|congruence].
  - split; [reflexivity|]. exists c, v. auto.
Qed.

Lemma run_float : forall n s s', runc n (PRule R_float_string) s = ROk s' -> exists u t, lexed s s' u t /\ float_text u t.
Proof.
  intros n s s' H. apply run_rule in H. destruct H as (m & _ & H).
  change (CG R_float_string) with (PPred (QDo TBlockStart) ⋅ PPlus (PClass (B "0123456789")) ⋅ PQuery (PChar "."%char) ⋅
    PStar (PClass (B "0123456789")) ⋅ PClass (B "eE") ⋅ PQuery (PClass (B "-+")) ⋅
    PClass (B "0123456789") ⋅ PStar (PRule R_sym_part) ⋅ PPred (QDo TBlockEnd) ⋅
    PAct (TDo [SStrBlock]) ∥ PPred (QDo TBlockStart) ⋅ PStar (PClass (B "0123456789")) ⋅
    PChar "."%char ⋅ PClass (B "0123456789") ⋅ PStar (PRule R_sym_part) ⋅
    PPred (QDo TBlockEnd) ⋅ PAct (TDo [SStrBlock]) : cexp) in H.
  apply run_alt in H. destruct H as (m1 & _ & [H|(s1 & _ & H)]).
  - apply run_seq in H. destruct H as (k1 & sa & _ & Ha & H). apply run_pdo in Ha. destruct Ha as [Oa Ta].
    apply run_seq in H. destruct H as (k2 & sb & _ & Hb & H). apply run_plus in Hb. destruct Hb as (j & sx & _ & X1 & X2).
    apply run_class in X1. destruct X1 as (c & C1 & C2 & C3). apply run_classes in X2. destruct X2 as (a & A1 & A2 & A3).
    apply run_seq in H. destruct H as (k3 & sc & _ & Hc & H).
    assert (exists dot, over sb sc dot /\ thunks sc = thunks sb /\ opt (B ".") dot) as (dot & D1 & D2 & D3).
    { apply run_query in Hc. destruct Hc as (j1 & _ & [K|[K1 K2]]).
      - apply run_char in K. destruct K as [K1 K2]. exists (B "."). split; [exact K1|]. split; [exact K2|]. right. exists "."%char. split; [reflexivity|left; reflexivity].
      - exists []. split; [apply over_nil; exact K1|]. split; [exact K2|]. left. reflexivity. }
    apply run_seq in H. destruct H as (k4 & sd & _ & Hd & H). apply run_classes in Hd. destruct Hd as (b & B1 & B2 & B3).
    apply run_seq in H. destruct H as (k5 & se & _ & He & H). apply run_class in He. destruct He as (e & E1 & E2 & E3).
    apply run_seq in H. destruct H as (k6 & sf & _ & Hf & H). apply run_opt_class in Hf. destruct Hf as (sign & F1 & F2 & F3).
    apply run_seq in H. destruct H as (k7 & sg & _ & Hg & H). apply run_class in Hg. destruct Hg as (d & G1 & G2 & G3).
    apply run_seq in H. destruct H as (k8 & sh & _ & Hh & H). apply run_parts in Hh. destruct Hh as (v & V1 & V2 & V3).
    apply run_seq in H. destruct H as (k9 & si & _ & Hi & H). apply run_pdo in Hi. destruct Hi as [Oi Ti].
    apply run_act in H. destruct H as [Oe Te].
    exists (c :: a ++ dot ++ b ++ e :: sign ++ d :: v), (c :: a ++ dot ++ b ++ e :: sign ++ d :: v). split.
    + eapply (block_wrap s sa sh si s'); eauto; [|congruence].
      change (over sa sh ([c] ++ a ++ dot ++ b ++ [e] ++ sign ++ [d] ++ v)). repeat (eapply over_app; eauto).
    + split; [reflexivity|]. left. exists c, a, dot, b, e, sign, d, v. split; [reflexivity|]. split; [|auto 9].
      intros x [<-|Hx]; [exact C2|apply A3; exact Hx].
  - apply run_seq in H. destruct H as (k1 & sa & _ & Ha & H). apply run_pdo in Ha. destruct Ha as [Oa Ta].
    apply run_seq in H. destruct H as (k2 & sb & _ & Hb & H). apply run_classes in Hb. destruct Hb as (a & A1 & A2 & A3).
    apply run_seq in H. destruct H as (k3 & sc & _ & Hc & H). apply run_char in Hc. destruct Hc as [D1 D2].
    apply run_seq in H. destruct H as (k7 & sg & _ & Hg & H). apply run_class in Hg. destruct Hg as (d & G1 & G2 & G3).
    apply run_seq in H. destruct H as (k8 & sh & _ & Hh & H). apply run_parts in Hh. destruct Hh as (v & V1 & V2 & V3).
    apply run_seq in H. destruct H as (k9 & si & _ & Hi & H). apply run_pdo in Hi. destruct Hi as [Oi Ti].
    apply run_act in H. destruct H as [Oe Te].
    exists (a ++ "."%char :: d :: v), (a ++ "."%char :: d :: v). split.
    + eapply (block_wrap s sa sh si s'); eauto; [|congruence].
      change (over sa sh (a ++ ["."%char] ++ [d] ++ v)). repeat (eapply over_app; eauto).
    + split; [reflexivity|]. right. exists a, d, v. auto.
Qed.

(** *** Words *)
Lemma fail_seq : forall n e1 e2 s s', runc n (e1 ⋅ e2) s = RFail s' ->
  exists m, m < n /\ ((exists s1, runc m e1 s = RFail s1) \/ exists s1, runc m e1 s = ROk s1 /\ runc m e2 s1 = RFail s').
Proof.
  intros [|n] e1 e2 s s' H; [discriminate|]. cbn [Peg.run] in H. exists n. split; [lia|].
  destruct (runc n e1 s) as [s1|s1| |] eqn:E; try discriminate; eauto.
Qed.
Lemma fail_class : forall n cs s s' c, runc n (PClass cs) s = RFail s' -> at_ s 0 c -> ~ In c cs.
Proof.
  intros [|n] cs s s' c H K HI; [discriminate|]. cbn [Peg.run] in H. unfold get_of, at_ in *. rewrite Nat.add_0_r in K. rewrite K in H.
  destruct (in_class cs c) eqn:E; [discriminate|]. unfold in_class in E.
  assert (existsb (beq c) cs = true); [|congruence]. apply existsb_exists. exists c. split; [exact HI|apply Ascii.eqb_refl].
Qed.
Lemma fail_err : forall n e q s s', runc n (PErr e q) s = RFail s' -> exists m s1, m < n /\ runc m e s = RFail s1.
Proof.
  intros [|n] e q s s' H; [discriminate|]. cbn [Peg.run] in H. destruct (runc n e s) as [s1|s1| |] eqn:E; try discriminate. eauto.
Qed.
Lemma fail_line_start : forall n s s', runc n (PRule R__line_start_) s = RFail s' -> False.
Proof.
  intros n s s' H. apply fail_rule in H. destruct H as (m & s1 & _ & H). destruct m as [|m]; [discriminate|].
  cbn in H. discriminate.
Qed.
Lemma fail_ws : forall n s s' c, runc n (PRule R_WS) s = RFail s' -> at_ s 0 c -> ~ In c [" "; "009"; "010"]%char.
Proof.
  intros n s s' c H K. apply fail_rule in H. destruct H as (m & s1 & _ & H).
  change (CG R_WS) with ((PRule R_HWS : cexp) ∥ PRule R_EOL) in H. apply fail_alt in H. destruct H as (m1 & s2 & _ & H1 & H2).
  apply fail_rule in H1. destruct H1 as (m2 & s3 & _ & H1). apply (fail_class _ _ _ _ c) in H1; [|exact K].
  apply fail_rule in H2. destruct H2 as (m3 & s4 & _ & H2).
  change (CG R_EOL) with ((PChar "010"%char ∥ PStr ["013"%char; "010"%char]) ⋅ PRule R__line_start_ : cexp) in H2.
  apply fail_seq in H2. destruct H2 as (m4 & _ & [(s5 & H2)|(s5 & _ & H2)]); [|apply fail_line_start in H2; contradiction].
  apply fail_alt in H2. destruct H2 as (m5 & s6 & _ & H2 & _). apply fail_char in H2.
  intros [<-|[<-|[<-|[]]]]; [apply H1; cbn; auto|apply H1; cbn; auto|apply H2; exact K].
Qed.

Lemma word_app : forall u1 t1 u2 t2, word_text u1 t1 -> word_text u2 t2 -> word_text (u1 ++ u2) (t1 ++ t2).
Proof.
  intros u1 t1 u2 t2 H1 H2. induction H1 as [|c u t Hc _ IH|c x u t Hc _ IH|u t _ IH|v u s t Hv _ IH]; cbn;
    [exact H2|apply wt_char; auto|apply wt_esc; auto|apply wt_semi; auto|rewrite <- !app_assoc; apply wt_quoted; auto].
Qed.
Lemma word_plain : forall u, (forall c, In c u -> plain_char c) -> word_text u u.
Proof. induction u as [|c u IH]; intros H; constructor; [apply H; left; reflexivity|apply IH; intros d Hd; apply H; right; exact Hd]. Qed.

Lemma run_plain_char : forall n s s', runc n (PNot (PClass (B "'""") ∥ PRule R_WS ∥ PStr (B "//") ∥
  PStr (B "/*") ∥ PChar "\"%char ∥ PRule R_SEMICOLON ∥ PRule R_EOF) ⋅ PDot) s = ROk s' ->
  exists c, over s s' [c] /\ plain_char c /\ thunks s' = thunks s.
Proof.
  intros n s s' H. apply run_seq in H. destruct H as (m & s1 & _ & H1 & H2).
  apply run_not in H1. destruct H1 as (P1 & T1 & m1 & s2 & _ & F).
  apply run_any in H2. destruct H2 as (c & O & T & E). exists c.
  split; [eapply over_eq; [exact O| |reflexivity]; congruence|]. split; [|congruence].
  assert (K : at_ s 0 c) by (unfold at_; rewrite Nat.add_0_r; congruence).
  apply fail_alt in F. destruct F as (k1 & x1 & _ & F1 & F). apply (fail_class _ _ _ _ c) in F1; [|exact K].
  apply fail_alt in F. destruct F as (k2 & x2 & _ & F2 & F). apply (fail_ws _ _ _ c) in F2; [|exact K].
  apply fail_alt in F. destruct F as (k3 & x3 & _ & _ & F). apply fail_alt in F. destruct F as (k4 & x4 & _ & _ & F).
  apply fail_alt in F. destruct F as (k5 & x5 & _ & F3 & F). apply fail_char in F3.
  apply fail_alt in F. destruct F as (k6 & x6 & _ & F4 & _). apply fail_rule in F4. destruct F4 as (k7 & x7 & _ & F4).
  apply fail_err in F4. destruct F4 as (k8 & x8 & _ & F4). apply fail_char in F4.
  unfold plain_char. cbn [In]. cbn [In B list_ascii_of_string] in F1, F2.
  intros HI. destruct HI as [<-|[<-|[<-|[<-|[<-|[<-|[<-|[]]]]]]]]; [apply F1; auto|apply F1; auto|apply F2; auto|apply F2; auto|apply F2; auto|
    apply F3; exact K|apply F4; exact K].
Qed.
Definition unquoted_body : cexp :=
  PRule R_escaped_char ∥ PStr (B "\;") ⋅ PAct (TDo [SStrAppend (B ";")]) ∥
  block_exp (PPlus (PNot (PClass (B "'""") ∥ PRule R_WS ∥ PStr (B "//") ∥
  PStr (B "/*") ∥ PChar "\"%char ∥ PRule R_SEMICOLON ∥ PRule R_EOF) ⋅ PDot)).
Lemma run_unquoted_body : forall n s s', runc n unquoted_body s = ROk s' -> exists u t, lexed s s' u t /\ word_text u t.
Proof.
  intros n s s' H. apply run_alt in H. destruct H as (m & _ & [H|(s1 & _ & H)]).
  - apply run_esc in H. destruct H as (c & x & E & L). exists ["\"; c]%char, [x]. split; [exact L|]. apply wt_esc; [exact E|constructor].
  - apply run_alt in H. destruct H as (m2 & _ & [H|(s2 & _ & H)]).
    + apply run_seq in H. destruct H as (m3 & s3 & _ & H1 & H2). apply run_str in H1. destruct H1 as [O T].
      apply run_act in H2. destruct H2 as [O2 T2]. exists ["\"; ";"]%char, [";"%char]. split; [|apply wt_semi; constructor].
      split; [eapply over_eq; [exact O|reflexivity|exact O2]|]. exists [(TDo [SStrAppend (B ";")], pos s3)].
      split; [rewrite T2, T; reflexivity|apply lexes_text].
    + apply (run_block_exp _ _ _ _ (fun _ u => forall c, In c u -> plain_char c)) in H; [| |auto].
      * destruct H as (u & L & P). exists u, u. split; [exact L|apply word_plain; exact P].
      * clear. intros m s s' H. apply (plus_chars (fun c _ => plain_char c)) in H; [|apply run_plain_char].
        destruct H as (c & u & O & T & P). exists (c :: u). split; [exact O|]. split; [exact T|]. intros d Hd.
        apply In_nth_error in Hd. destruct Hd as [i Hi]. destruct (P _ _ Hi) as (_ & _ & K). exact K.
Qed.
Lemma run_word_star : forall e, (forall n s s', runc n e s = ROk s' -> exists u t, lexed s s' u t /\ word_text u t) ->
  forall n s s', runc n (PStar e) s = ROk s' -> exists u t, lexed s s' u t /\ word_text u t.
Proof.
  intros e He. induction n as [n IH] using lt_wf_ind. intros s s' H. destruct n as [|n]; [discriminate|]. cbn [Peg.run] in H.
  destruct (runc n e s) as [s1|s1| |] eqn:E; try discriminate.
  - destruct (He _ _ _ E) as (u1 & t1 & L1 & W1). destruct (IH n (Nat.lt_succ_diag_r n) _ _ H) as (u2 & t2 & L2 & W2).
    exists (u1 ++ u2), (t1 ++ t2). split; [eapply lexed_app; eauto|apply word_app; assumption].
  - injection H as <-. exists [], []. split; [apply lexed_quiet; [apply over_nil; reflexivity|reflexivity]|constructor].
Qed.
Lemma run_word_plus : forall e, (forall n s s', runc n e s = ROk s' -> exists u t, lexed s s' u t /\ word_text u t) ->
  forall n s s', runc n (PPlus e) s = ROk s' -> exists u t, lexed s s' u t /\ word_text u t.
Proof.
  intros e He n s s' H. apply run_plus in H. destruct H as (m & s1 & _ & H1 & H2).
  destruct (He _ _ _ H1) as (u1 & t1 & L1 & W1). destruct (run_word_star e He _ _ _ H2) as (u2 & t2 & L2 & W2).
  exists (u1 ++ u2), (t1 ++ t2). split; [eapply lexed_app; eauto|apply word_app; assumption].
Qed.
Lemma run_words : forall n s s', runc n (PPlus (PRule R_unquoted ∥ PRule R_quoted)) s = ROk s' ->
  exists u t, lexed s s' u t /\ word_text u t.
Proof.
  apply run_word_plus. intros n s s' H. apply run_alt in H. destruct H as (m & _ & [H|(s1 & _ & H)]).
  - apply run_rule in H. destruct H as (m1 & _ & H). change (CG R_unquoted) with (PPlus unquoted_body) in H.
    eapply run_word_plus; [|exact H]. apply run_unquoted_body.
  - apply run_quoted in H. destruct H as (u & t & L & Q). exists u, t. split; [exact L|].
    rewrite <- (app_nil_r u), <- (app_nil_r t). apply wt_quoted; [exact Q|constructor].
Qed.

(** *** Names with dots *)
Lemma run_dot_char : forall n s s', runc n (PRule R_DOT) s = ROk s' -> lexed s s' (B ".") [].
Proof.
  intros n s s' H. apply run_rule in H. destruct H as (m & _ & H). apply run_err in H. destruct H as (m1 & _ & H).
  apply run_char in H. destruct H as [O T]. apply lexed_quiet; assumption.
Qed.
Lemma lexed_pos : forall s s' u t, lexed s s' u t -> pos s <= List.length inp -> pos s' <= List.length inp.
Proof.
  intros s s' u t [[O1 O2] _] H. rewrite O1. apply (f_equal (@List.length _)) in O2. rewrite skipn_length, app_length in O2. lia.
Qed.
Lemma run_dotted : forall n s s', pos s <= List.length inp -> runc n (PStar (PRule R_symbolic_name ⋅
  PRule R_sp ⋅ PRule R_DOT ⋅ PRule R_sp ⋅ PAct (TDo [SStrAppend (B ".")]))) s = ROk s' ->
  pos s' <= List.length inp /\ exists u t, lexed s s' u t /\ forall v x, dotted_text v x -> dotted_text (u ++ v) (t ++ x).
Proof.
  induction n as [n IH] using lt_wf_ind. intros s s' Hp H. destruct n as [|n]; [discriminate|]. cbn [Peg.run] in H.
  match type of H with match runc n ?e s with _ => _ end = _ => set (body := e) in * end.
  destruct (runc n body s) as [s1|s1| |] eqn:E; try discriminate.
  - apply run_seq in E. destruct E as (m1 & sa & _ & Ea & E). apply run_name in Ea. destruct Ea as (u1 & t1 & L1 & N1).
    pose proof (lexed_pos _ _ _ _ L1 Hp) as Pa.
    apply run_seq in E. destruct E as (m2 & sb & _ & Eb & E). apply run_gap in Eb; [|exact Pa]. destruct Eb as (w1 & L2 & G1).
    pose proof (lexed_pos _ _ _ _ L2 Pa) as Pb.
    apply run_seq in E. destruct E as (m3 & sc & _ & Ec & E). apply run_dot_char in Ec. pose proof (lexed_pos _ _ _ _ Ec Pb) as Pc.
    apply run_seq in E. destruct E as (m4 & sd & _ & Ed & E). apply run_gap in Ed; [|exact Pc]. destruct Ed as (w2 & L3 & G2).
    pose proof (lexed_pos _ _ _ _ L3 Pc) as Pd.
    apply run_act in E. destruct E as [Oe Te].
    assert (L4 : lexed sd s1 [] (B ".")).
    { split; [apply over_nil; exact Oe|]. exists [(TDo [SStrAppend (B ".")], pos sd)]. split; [exact Te|apply lexes_text]. }
    pose proof (lexed_pos _ _ _ _ L4 Pd) as P1.
    destruct (IH n (Nat.lt_succ_diag_r n) _ _ P1 H) as (P' & u2 & t2 & L5 & D). split; [exact P'|].
    exists ((u1 ++ w1 ++ B "." ++ w2 ++ []) ++ u2), ((t1 ++ [] ++ [] ++ [] ++ B ".") ++ t2). split.
    + eapply lexed_app; [|exact L5]. repeat (eapply lexed_app; eauto).
    + intros v x Hv. rewrite app_nil_r. rewrite <- !app_assoc. cbn [app]. apply (dt_dot u1 t1 w1 w2 (u2 ++ v) (t2 ++ x)); auto.
  - injection H as <-. split; [exact Hp|]. exists [], []. split; [apply lexed_quiet; [apply over_nil; reflexivity|reflexivity]|auto].
Qed.
Lemma run_dotted_name : forall n s s', pos s <= List.length inp -> runc n (PStar (PRule R_symbolic_name ⋅
  PRule R_sp ⋅ PRule R_DOT ⋅ PRule R_sp ⋅ PAct (TDo [SStrAppend (B ".")])) ⋅ PRule R_symbolic_name) s = ROk s' ->
  exists u t, lexed s s' u t /\ dotted_text u t.
Proof.
  intros n s s' Hp H. apply run_seq in H. destruct H as (m & s1 & _ & H1 & H2). apply run_dotted in H1; [|exact Hp].
  destruct H1 as (_ & u1 & t1 & L1 & D). apply run_name in H2. destruct H2 as (u2 & t2 & L2 & N).
  exists (u1 ++ u2), (t1 ++ t2). split; [eapply lexed_app; eauto|]. apply D, dt_one. exact N.
Qed.
Lemma run_colon_name : forall n s s', pos s <= List.length inp ->
  runc n (PChar ":"%char ⋅ PRule R_sp ⋅ PRule R_symbolic_name) s = ROk s' -> exists u t, lexed s s' u t /\ colon_text u t.
Proof.
  intros n s s' Hp H. apply run_seq in H. destruct H as (m & s1 & _ & H1 & H2). apply run_char in H1. destruct H1 as [O T].
  pose proof (lexed_quiet _ _ _ O T) as L1. pose proof (lexed_pos _ _ _ _ L1 Hp) as P1.
  apply run_seq in H2. destruct H2 as (m2 & s2 & _ & H2 & H3). apply run_gap in H2; [|exact P1]. destruct H2 as (w & L2 & G).
  apply run_name in H3. destruct H3 as (v & t & L3 & N).
  exists (":"%char :: w ++ v), t. split; [apply (lexed_app _ _ _ [_] [] _ _ L1 (lexed_app _ _ _ _ [] _ _ L2 L3))|].
  exists w, v. auto.
Qed.
Lemma run_param : forall n s s', pos s <= List.length inp ->
  runc n (PErr (PChar "$"%char ⋅ PRule R_sp ⋅ PRule R_parameter_name) (QErr (B "a parameter")) ∥ PErr (PChar "{"%char ⋅ PRule R_sp ⋅
  PRule R_parameter_name) (QErr (B "a parameter")) ⋅ PRule R_sp ⋅ PRule R_RIGHT_CURLY) s = ROk s' ->
  exists u t, lexed s s' u t /\ param_text u t.
Proof.
  assert (K : forall c n s s', pos s <= List.length inp -> runc n (PErr (PChar c ⋅ PRule R_sp ⋅ PRule R_parameter_name) (QErr (B "a parameter"))) s = ROk s' ->
    exists w v t, lexed s s' (c :: w ++ v) t /\ gap w /\ param_name_text v t).
  { intros c n s s' Hp H. apply run_err in H. destruct H as (m0 & _ & H).
    apply run_seq in H. destruct H as (m & s1 & _ & H1 & H2). apply run_char in H1. destruct H1 as [O T].
    pose proof (lexed_quiet _ _ _ O T) as L1. pose proof (lexed_pos _ _ _ _ L1 Hp) as P1.
    apply run_seq in H2. destruct H2 as (m2 & s2 & _ & H2 & H3). apply run_gap in H2; [|exact P1]. destruct H2 as (w & L2 & G).
    apply run_param_name in H3. destruct H3 as (v & t & L3 & N).
    exists w, v, t. split; [apply (lexed_app _ _ _ [_] [] _ _ L1 (lexed_app _ _ _ _ [] _ _ L2 L3))|]. auto. }
  intros n s s' Hp H. apply run_alt in H. destruct H as (m & _ & [H|(s1 & _ & H)]).
  - apply K in H; [|exact Hp]. destruct H as (w & v & t & L & G & N). exists ("$"%char :: w ++ v), t. split; [exact L|].
    exists w, v. auto.
  - apply run_seq in H. destruct H as (m1 & s2 & _ & H1 & H2). apply K in H1; [|exact Hp]. destruct H1 as (w & v & t & L & G & N).
    pose proof (lexed_pos _ _ _ _ L Hp) as P2.
    apply run_seq in H2. destruct H2 as (m2 & s3 & _ & H2 & H3). apply run_gap in H2; [|exact P2]. destruct H2 as (w2 & L2 & G2).
    apply run_rule in H3. destruct H3 as (m4 & _ & H3). apply run_err in H3. destruct H3 as (m5 & _ & H3). apply run_char in H3.
    destruct H3 as [O T]. pose proof (lexed_quiet _ _ _ O T) as L3.
    exists ("{"%char :: w ++ v ++ w2 ++ ["}"%char]), t. split.
    + replace ("{"%char :: w ++ v ++ w2 ++ ["}"%char]) with (("{"%char :: w ++ v) ++ w2 ++ ["}"%char]) by (cbn; rewrite <- app_assoc; reflexivity).
      replace t with (t ++ [] ++ []) by apply app_nil_r. eapply lexed_app; [exact L|]. eapply lexed_app; eauto.
    + exists w, v. split; [exact G|]. split; [exact N|]. right. exists w2. auto.
Qed.

(** *** The rules for leaves *)
Definition leafed (r : rule) (s s' : cst) : Prop :=
  exists l ls, thunks s' = rev l ++ thunks s /\ makes inp l ls /\ leaves_of inp (r, pos s, pos s') ls.

Lemma slice_none : forall (l : bytes) p, slice l p p = [].
Proof. intros l p. unfold slice. rewrite Nat.sub_diag. reflexivity. Qed.

Lemma strbuf_rule : forall (s s1 s2 s3 s4 s' : cst) c close t u w,
  pos s1 = pos s ->
  thunks s1 = [(TBlockStart, pos s); (TDo [SStrReset], pos s)] ++ thunks s \/
  thunks s1 = [(TDo [SStrReset], pos s); (TBlockStart, pos s)] ++ thunks s ->
  lexed s1 s2 u t -> pos s3 = pos s2 -> thunks s3 = (close, pos s2) :: thunks s2 -> closes_block close ->
  pos s4 = pos s3 -> thunks s4 = (TDo [SLet LRet (RMk c [])], pos s3) :: thunks s3 -> lexed s4 s' w [] ->
  snd (build_call c) = [BStrbuf] -> leafy c = true ->
  exists l e, thunks s' = rev l ++ thunks s /\ makes inp l [(fst (build_call c), t, pos s, e)] /\
    pos s <= e <= pos s' /\ slice inp (pos s) e = u /\ slice inp e (pos s') = w.
Proof.
  intros s s1 s2 s3 s4 s' c close t u w P1 T1 [O2 [l [T2 (M2 & A2 & B2)]]] P3 T3 HC P4 T4 [O5 [l5 [T5 (M5 & _)]]] EC HL.
  assert (MC : makes inp [(close, pos s2)] []) by (destruct HC as [-> | ->]; apply makes_plain; reflexivity).
  assert (AC : appends inp [(close, pos s2)] []) by (destruct HC as [-> | ->]; apply appends_free; reflexivity).
  assert (K : exists pre l0, bal l0 0 = Some 0 /\ thunks s2 = rev (pre ++ [(TBlockStart, pos s)] ++ l0) ++ thunks s /\
    makes inp (pre ++ [(TBlockStart, pos s)] ++ l0) [] /\ sets inp (pre ++ [(TBlockStart, pos s)] ++ l0) t).
  { assert (MR : makes inp [(TDo [SStrReset], pos s)] []) by (apply makes_plain; reflexivity).
    assert (MB : makes inp [(TBlockStart, pos s)] []) by (apply makes_plain; reflexivity).
    assert (AB : appends inp [(TBlockStart, pos s)] []) by (apply appends_free; reflexivity).
    pose proof (sets_reset inp (pos s)) as SR.
    destruct T1 as [T1|T1]; rewrite T1 in T2.
    - exists [(TDo [SStrReset], pos s)], l. split; [exact B2|]. split; [rewrite T2, !rev_app_distr, <- !app_assoc; reflexivity|]. split.
      + apply (makes_app _ _ [] _ [] MR). apply (makes_app _ _ [] _ [] MB M2).
      + apply (sets_app _ _ [] _ t SR). apply (appends_app _ _ [] _ t AB A2).
    - exists [], ([(TDo [SStrReset], pos s)] ++ l). split; [exact B2|]. split; [rewrite T2, app_nil_l, !rev_app_distr, <- !app_assoc; reflexivity|]. split.
      + apply (makes_app _ _ [] _ [] MB). apply (makes_app _ _ [] _ [] MR M2).
      + rewrite app_nil_l. apply sets_after. apply (sets_app _ _ [] _ t SR A2). }
  destruct K as (pre & l0 & B0 & T0 & M0 & S0).
  assert (E : (pre ++ [(TBlockStart, pos s)] ++ l0) ++ [(close, pos s2)] = pre ++ [(TBlockStart, pos s)] ++ l0 ++ [(close, pos s2)])
    by (rewrite <- !app_assoc; reflexivity).
  exists (((pre ++ [(TBlockStart, pos s)] ++ l0 ++ [(close, pos s2)]) ++ built c (pos s3)) ++ l5), (pos s2).
  split; [|split; [|split; [|split]]].
  - rewrite T5, T4, T3, T0. rewrite (rev_app_distr _ l5), <- app_assoc. f_equal. rewrite <- E. unfold built.
    generalize (pre ++ [(TBlockStart, pos s)] ++ l0). intros x. rewrite (rev_app_distr (x ++ _)), (rev_app_distr x). reflexivity.
  - apply (makes_app _ _ [_] _ []); [|exact M5]. apply strbuf_leaf; auto.
    + rewrite <- E. apply (makes_app _ _ [] _ []); assumption.
    + rewrite <- E. rewrite <- (app_nil_r t). apply sets_app; assumption.
  - destruct O2 as [O2 _], O5 as [O5 _]. rewrite O5, P4, P3, O2, P1. lia.
  - rewrite <- P1. apply over_slice with (1 := O2).
  - replace (pos s2) with (pos s4) by congruence. apply over_slice with (1 := O5).
Qed.

Lemma one_leaf_of : forall ty (shape : bytes -> bytes -> Prop) p q t e u w, p <= e <= q -> slice inp p e = u -> slice inp e q = w ->
  shape u t -> gap w -> one_leaf ty shape inp p q [(ty, t, p, e)].
Proof. intros ty shape p q t e u w H1 H2 H3 H4 H5. exists e, t. rewrite H2, H3. auto. Qed.

(* a sequence *)
Ltac seq H k s Hk := apply run_seq in H; destruct H as (k & s & _ & Hk & H).

Definition reading (e : cexp) (shape : bytes -> bytes -> Prop) : Prop :=
  forall n s s', pos s <= List.length inp -> runc n e s = ROk s' -> exists u t, lexed s s' u t /\ shape u t.

(* reset, then a block *)
Lemma reset_block : forall r e shape c x n s s',
  CG r = (PAct (TDo [SStrReset]) ⋅ PErr (PPred (QDo TBlockStart) ⋅ e ⋅
    PPred (QDo TBlockEnd) ⋅ PAct (TDo [SLet LRet (RMk c [])]) ⋅ PRule R_sp) x : cexp) ->
  (forall p q l, leaves_of inp (r, p, q) l = one_leaf (fst (build_call c)) shape inp p q l) ->
  snd (build_call c) = [BStrbuf] -> leafy c = true -> reading e shape ->
  pos s <= List.length inp -> runc n (CG r) s = ROk s' -> leafed r s s'.
Proof.
  intros r e shape c x n s s' HG HV EC HL HR Hp H. rewrite HG in H.
  seq H k1 sa Ha. apply run_act in Ha. destruct Ha as [Pa Ta]. apply run_err in H. destruct H as (k0 & _ & H).
  seq H k2 sb Hb. apply run_pdo in Hb. destruct Hb as [Pb Tb].
  seq H k3 sc Hc. destruct (HR _ _ _ ltac:(rewrite Pb, Pa; exact Hp) Hc) as (u & t & L & S).
  pose proof (lexed_pos _ _ _ _ L ltac:(rewrite Pb, Pa; exact Hp)) as Hpc.
  seq H k4 sd Hd. apply run_pdo in Hd. destruct Hd as [Pd Td]. seq H k5 se He. apply run_act in He. destruct He as [Pe Te].
  apply run_gap in H; [|congruence]. destruct H as (w & L2 & G).
  destruct (strbuf_rule s sb sc sd se s' c TBlockEnd t u w) as (l & z & L3 & L4 & L5 & L6 & L7); auto; try congruence.
  - left. rewrite Tb, Ta, Pa. reflexivity.
  - left. reflexivity.
  - exists l, [(fst (build_call c), t, pos s, z)]. split; [exact L3|]. split; [exact L4|]. rewrite HV. eapply one_leaf_of; eauto.
Qed.

(* a block, then reset *)
Lemma block_reset : forall r e shape c x n s s',
  CG r = (PPred (QDo TBlockStart) ⋅ PAct (TDo [SStrReset]) ⋅ PErr e x ⋅
    PPred (QDo TBlockEnd) ⋅ PAct (TDo [SLet LRet (RMk c [])]) ⋅ PRule R_sp : cexp) ->
  (forall p q l, leaves_of inp (r, p, q) l = one_leaf (fst (build_call c)) shape inp p q l) ->
  snd (build_call c) = [BStrbuf] -> leafy c = true -> reading e shape ->
  pos s <= List.length inp -> runc n (CG r) s = ROk s' -> leafed r s s'.
Proof.
  intros r e shape c x n s s' HG HV EC HL HR Hp H. rewrite HG in H.
  seq H k1 sa Ha. apply run_pdo in Ha. destruct Ha as [Pa Ta].
  seq H k2 sb Hb. apply run_act in Hb. destruct Hb as [Pb Tb].
  seq H k3 sc Hc. apply run_err in Hc. destruct Hc as (k0 & _ & Hc). destruct (HR _ _ _ ltac:(rewrite Pb, Pa; exact Hp) Hc) as (u & t & L & S).
  pose proof (lexed_pos _ _ _ _ L ltac:(rewrite Pb, Pa; exact Hp)) as Hpc.
  seq H k4 sd Hd. apply run_pdo in Hd. destruct Hd as [Pd Td]. seq H k5 se He. apply run_act in He. destruct He as [Pe Te].
  apply run_gap in H; [|congruence]. destruct H as (w & L2 & G).
  destruct (strbuf_rule s sb sc sd se s' c TBlockEnd t u w) as (l & z & L3 & L4 & L5 & L6 & L7); auto; try congruence.
  - right. rewrite Tb, Ta, Pa. reflexivity.
  - left. reflexivity.
  - exists l, [(fst (build_call c), t, pos s, z)]. split; [exact L3|]. split; [exact L4|]. rewrite HV. eapply one_leaf_of; eauto.
Qed.

(* a merged block, then reset *)
Lemma run_start : forall n s s', runc n (PRule R__block_start_) s = ROk s' -> pos s' = pos s /\ thunks s' = (TBlockStart, pos s) :: thunks s.
Proof. intros n s s' H. apply run_rule in H. destruct H as (m & _ & H). apply run_pdo in H. exact H. Qed.
Lemma run_merge : forall n s s', runc n (PRule R__block_merge_) s = ROk s' -> pos s' = pos s /\ thunks s' = (TBlockMerge, pos s) :: thunks s.
Proof. intros n s s' H. apply run_rule in H. destruct H as (m & _ & H). apply run_pdo in H. exact H. Qed.
Lemma merge_reset : forall r e shape c n s s',
  CG r = (PRule R__block_start_ ⋅ PAct (TDo [SStrReset]) ⋅ e ⋅
    PRule R__block_merge_ ⋅ PAct (TDo [SLet LRet (RMk c [])]) ⋅ PRule R_sp : cexp) ->
  (forall p q l, leaves_of inp (r, p, q) l = one_leaf (fst (build_call c)) shape inp p q l) ->
  snd (build_call c) = [BStrbuf] -> leafy c = true -> reading e shape ->
  pos s <= List.length inp -> runc n (CG r) s = ROk s' -> leafed r s s'.
Proof.
  intros r e shape c n s s' HG HV EC HL HR Hp H. rewrite HG in H.
  seq H k1 sa Ha. apply run_start in Ha. destruct Ha as [Pa Ta].
  seq H k2 sb Hb. apply run_act in Hb. destruct Hb as [Pb Tb].
  seq H k3 sc Hc. destruct (HR _ _ _ ltac:(rewrite Pb, Pa; exact Hp) Hc) as (u & t & L & S).
  pose proof (lexed_pos _ _ _ _ L ltac:(rewrite Pb, Pa; exact Hp)) as Hpc.
  seq H k4 sd Hd. apply run_merge in Hd. destruct Hd as [Pd Td]. seq H k5 se He. apply run_act in He. destruct He as [Pe Te].
  apply run_gap in H; [|congruence]. destruct H as (w & L2 & G).
  destruct (strbuf_rule s sb sc sd se s' c TBlockMerge t u w) as (l & z & L3 & L4 & L5 & L6 & L7); auto; try congruence.
  - right. rewrite Tb, Ta, Pa. reflexivity.
  - right. reflexivity.
  - exists l, [(fst (build_call c), t, pos s, z)]. split; [exact L3|]. split; [exact L4|]. rewrite HV. eapply one_leaf_of; eauto.
Qed.

Lemma word_rule : forall n s s', pos s <= List.length inp -> runc n (CG R_client_arg_string) s = ROk s' -> leafed R_client_arg_string s s'.
Proof.
  intros n s s' Hp H.
  change (CG R_client_arg_string) with (PAct (TDo [SStrReset]) ⋅ PPred (QDo TBlockStart) ⋅ PPlus (PRule R_unquoted ∥
    PRule R_quoted) ⋅ PPred (QDo TBlockEnd) ⋅ PAct (TDo [SLet LRet (RMk K_strbuf_string [])]) : cexp) in H.
  seq H k1 sa Ha. apply run_act in Ha. destruct Ha as [Pa Ta].
  seq H k2 sb Hb. apply run_pdo in Hb. destruct Hb as [Pb Tb].
  seq H k3 sc Hc. apply run_words in Hc. destruct Hc as (u & t & L & S).
  seq H k4 sd Hd. apply run_pdo in Hd. destruct Hd as [Pd Td]. apply run_act in H. destruct H as [Pe Te].
  destruct (strbuf_rule s sb sc sd s' s' K_strbuf_string TBlockEnd t u []) as (l & z & L3 & L4 & L5 & L6 & L7); auto; try congruence.
  - left. rewrite Tb, Ta, Pa. reflexivity.
  - left. reflexivity.
  - apply lexed_quiet; [apply over_nil; reflexivity|reflexivity].
  - exists l, [(T_STRING, t, pos s, z)]. split; [exact L3|]. split; [exact L4|]. eapply one_leaf_of; eauto. constructor.
Qed.

(* a block whose text is the text of the node *)
Lemma block_rule_leaf : forall r e c n s s',
  CG r = (PPred (QDo TBlockStart) ⋅ e ⋅ PPred (QDo TBlockEnd) ⋅ PAct (TDo [SLet LRet (RMk c [])]) : cexp) ->
  (forall p q l, leaves_of inp (r, p, q) l = one_leaf (fst (build_call c)) as_is inp p q l) ->
  snd (build_call c) = [BBlock] -> leafy c = true ->
  (forall m s s', runc m e s = ROk s' -> exists u, over s s' u /\ thunks s' = thunks s /\ u <> []) ->
  runc n (CG r) s = ROk s' -> leafed r s s'.
Proof.
  intros r e c n s s' HG HV EC HL HR H. rewrite HG in H.
  seq H k2 sb Hb. apply run_pdo in Hb. destruct Hb as [Pb Tb].
  seq H k3 sc Hc. destruct (HR _ _ _ Hc) as (u & O & T & NU).
  seq H k4 sd Hd. apply run_pdo in Hd. destruct Hd as [Pd Td]. apply run_act in H. destruct H as [Pe Te].
  exists ([(TBlockStart, pos s); (TBlockEnd, pos s')] ++ built c (pos s')), [(fst (build_call c), slice inp (pos s) (pos s'), pos s, pos s')].
  split; [|split; [apply block_leaf; assumption|]].
  - rewrite Te, Td, T, Tb. unfold built. replace (pos sd) with (pos s') by congruence. replace (pos sc) with (pos s') by congruence. reflexivity.
  - rewrite HV. exists (pos s'), (slice inp (pos s) (pos s')). rewrite slice_none.
    assert (slice inp (pos s) (pos s') = u) as ->.
    { apply (over_slice inp s s'). eapply over_eq; [exact O| |]; congruence. }
    destruct O as [O _]. split; [lia|]. split; [split; [reflexivity|exact NU]|]. split; [constructor|reflexivity].
Qed.

Lemma plus_any : forall cs n s s', runc n (PPlus (PClass cs)) s = ROk s' -> exists u, over s s' u /\ thunks s' = thunks s /\ u <> [].
Proof.
  intros cs n s s' H. apply (plus_chars (fun _ _ => True)) in H.
  - destruct H as (c & u & O & T & _). exists (c :: u). split; [exact O|]. split; [exact T|discriminate].
  - clear. intros n s s' H. apply run_class in H. destruct H as (c & O & _ & T). exists c. auto.
Qed.

Definition lex_rule (r : rule) : bool :=
  match r with
  | R_string_literal | R_client_arg_string | R_cypher_version | R_cypher_param_name | R_cypher_param_val | R_integer_literal
  | R_float_literal | R_identifier | R_parameter | R_label | R_rel_type | R_rel_type_name | R_prop_name | R_index_name
  | R_function_name | R_proc_name => true
  | _ => false
  end.
Lemma lex_rule_run : forall r n s s', lex_rule r = true -> pos s <= List.length inp -> runc n (CG r) s = ROk s' -> leafed r s s'.
Proof.
  assert (RN : reading (PRule R_symbolic_name) name_text) by (intros n s s' _ H; apply run_name in H; exact H).
  assert (RC : forall x, reading (PErr (PChar ":"%char ⋅ PRule R_sp ⋅ PRule R_symbolic_name) x) colon_text).
  { intros x n s s' Hp H. apply run_err in H. destruct H as (m & _ & H). eapply run_colon_name; eauto. }
  intros r n s s' Hr Hp H. destruct r; try discriminate Hr.
  - eapply (block_rule_leaf R_cypher_version); [reflexivity|reflexivity|reflexivity|reflexivity| |exact H].
    clear. intros m s s' H. apply run_err in H. destruct H as (m0 & _ & H). seq H k1 sa Ha. apply plus_any in Ha.
    destruct Ha as (u1 & O1 & T1 & N1). seq H k2 sb Hb. apply run_rule in Hb. destruct Hb as (m1 & _ & Hb). apply run_err in Hb. destruct Hb as (m2 & _ & Hb).
    apply run_char in Hb. destruct Hb as [O2 T2]. apply plus_any in H. destruct H as (u3 & O3 & T3 & _).
    exists (u1 ++ ["."%char] ++ u3). split; [eapply over_app; [exact O1|]; eapply over_app; eauto|]. split; [congruence|].
    destruct u1; [contradiction|discriminate].
  - eapply (block_rule_leaf R_cypher_param_name); [reflexivity|reflexivity|reflexivity|reflexivity| |exact H]. apply plus_any.
  - eapply (block_rule_leaf R_cypher_param_val); [reflexivity|reflexivity|reflexivity|reflexivity| |exact H].
    clear. intros m s s' H. apply (plus_chars (fun _ _ => True)) in H.
    + destruct H as (c & u & O & T & _). exists (c :: u). split; [exact O|]. split; [exact T|discriminate].
    + clear. intros n s s' H. seq H k s1 H1. apply run_not in H1. destruct H1 as (P1 & T1 & _).
      apply run_any in H. destruct H as (c & O & T & _). exists c. split; [eapply over_eq; [exact O| |reflexivity]; congruence|]. split; [exact I|congruence].
  - eapply (reset_block R_identifier _ name_text); [reflexivity|reflexivity|reflexivity|reflexivity|exact RN|exact Hp|exact H].
  - eapply (reset_block R_string_literal _ quoted_text); [reflexivity|reflexivity|reflexivity|reflexivity| |exact Hp|exact H].
    intros m a b _ K. apply run_quoted in K. exact K.
  - eapply (reset_block R_float_literal _ float_text); [reflexivity|reflexivity|reflexivity|reflexivity| |exact Hp|exact H].
    intros m a b _ K. apply run_float in K. exact K.
  - eapply (reset_block R_integer_literal _ number_text); [reflexivity|reflexivity|reflexivity|reflexivity| |exact Hp|exact H].
    intros m a b _ K. apply run_integer in K. exact K.
  - eapply (merge_reset R_parameter _ param_text); [reflexivity|reflexivity|reflexivity|reflexivity| |exact Hp|exact H].
    intros m a b Ha K. eapply run_param; eauto.
  - eapply (merge_reset R_label _ colon_text); [reflexivity|reflexivity|reflexivity|reflexivity|apply RC|exact Hp|exact H].
  - eapply (merge_reset R_rel_type _ colon_text); [reflexivity|reflexivity|reflexivity|reflexivity|apply RC|exact Hp|exact H].
  - eapply (block_reset R_rel_type_name _ name_text); [reflexivity|reflexivity|reflexivity|reflexivity|exact RN|exact Hp|exact H].
  - eapply (block_reset R_prop_name _ name_text); [reflexivity|reflexivity|reflexivity|reflexivity|exact RN|exact Hp|exact H].
  - eapply (block_reset R_function_name _ dotted_text); [reflexivity|reflexivity|reflexivity|reflexivity| |exact Hp|exact H].
    intros m a b Ha K. eapply run_dotted_name; eauto.
  - eapply (block_reset R_index_name _ name_text); [reflexivity|reflexivity|reflexivity|reflexivity|exact RN|exact Hp|exact H].
  - eapply (block_reset R_proc_name _ dotted_text); [reflexivity|reflexivity|reflexivity|reflexivity| |exact Hp|exact H].
    intros m a b Ha K. eapply run_dotted_name; eauto.
  - apply word_rule with (1 := Hp) (2 := H).
Qed.

(** *** All uses of rules *)
Definition may (uses : list (rule * nat * nat)) (l : list (action * nat)) : Prop :=
  forall e a a', e_inp e = inp -> exec e l a = XOk a' ->
  exists ls ns, Forall2 (leaves_of inp) uses ls /\ steps ns a a' /\
    Permutation (map leaf_view (filter is_leaf ns)) (map (leaf_at (offset (e_off e))) (List.concat ls)).
Definition did (uses : list (rule * nat * nat)) (s s' : cst) : Prop :=
  exists l, thunks s' = rev l ++ thunks s /\ may uses l.

Lemma may_nil : may [] [].
Proof. intros e a a' _ H. injection H as <-. exists [], []. split; [constructor|]. split; constructor. Qed.
Lemma may_app : forall v1 l1 v2 l2, may v1 l1 -> may v2 l2 -> may (v1 ++ v2) (l1 ++ l2).
Proof.
  intros v1 l1 v2 l2 H1 H2 e a a' HI H. rewrite exec_app in H.
  destruct (exec e l1 a) as [b| | |] eqn:E; cbn [xbind] in H; try discriminate.
  destruct (H1 _ _ _ HI E) as (ls1 & n1 & F1 & S1 & P1). destruct (H2 _ _ _ HI H) as (ls2 & n2 & F2 & S2 & P2).
  exists (ls1 ++ ls2), (n1 ++ n2). split; [apply Forall2_app; assumption|]. split; [eapply steps_app; eauto|].
  rewrite filter_app, concat_app, !map_app. apply Permutation_app; assumption.
Qed.
Lemma may_makes : forall l, makes inp l [] -> may [] l.
Proof.
  intros l H e a a' HI HE. destruct (H _ _ _ HI HE) as (ns & S1 & P1). exists [], ns. split; [constructor|]. auto.
Qed.
Lemma may_leaf : forall r p q vs l ls, makes inp l ls -> leaves_of inp (r, p, q) ls -> Forall (fun v => leaves_of inp v []) vs ->
  may ((r, p, q) :: vs) l.
Proof.
  intros r p q vs l ls HM HL HV e a a' HI HE. destruct (HM _ _ _ HI HE) as (ns & S1 & P1).
  exists (ls :: map (fun _ => []) vs), ns. split; [|split; [exact S1|]].
  - constructor; [exact HL|]. clear - HV. induction HV; constructor; auto.
  - cbn [List.concat]. replace (List.concat (map (fun _ : rule * nat * nat => []) vs)) with (@nil leaf); [rewrite app_nil_r; exact P1|].
    clear. induction vs; [reflexivity|exact IHvs].
Qed.
Lemma may_quiet : forall v vs l, leaves_of inp v [] -> may vs l -> may (v :: vs) l.
Proof.
  intros v vs l HV H e a a' HI HE. destruct (H _ _ _ HI HE) as (ls & ns & F & S1 & P1).
  exists ([] :: ls), ns. split; [constructor; assumption|]. auto.
Qed.

Lemma did_nil : forall s s', thunks s' = thunks s -> did [] s s'.
Proof. intros s s' H. exists []. split; [exact H|apply may_nil]. Qed.
Lemma did_app : forall v1 v2 s s1 s2, did v1 s s1 -> did v2 s1 s2 -> did (v1 ++ v2) s s2.
Proof.
  intros v1 v2 s s1 s2 (l1 & A1 & A2) (l2 & B1 & B2). exists (l1 ++ l2).
  split; [rewrite B1, A1, rev_app_distr, app_assoc; reflexivity|]. apply may_app; assumption.
Qed.
Lemma did_act : forall t (s s' : cst), forallb (fun c => negb (leafy c)) (ctors t) = true ->
  thunks s' = (t, pos s) :: thunks s -> did [] s s'.
Proof. intros t s s' Ht HT. exists [(t, pos s)]. split; [exact HT|]. apply may_makes, makes_plain. exact Ht. Qed.

(** rules used inside leaves *)
Definition inner_rule (r : rule) : bool :=
  tame_rule r ||
  match r with
  | R_symbolic_name | R_unescaped_symbolic_name | R_escaped_symbolic_name | R_parameter_name | R_float_string | R_integer_string
  | R_quoted | R_single_quoted | R_double_quoted | R_escaped_char | R_unquoted | R__block_start_ | R__block_merge_ => true
  | _ => false
  end.
Fixpoint inner (x : cexp) : bool :=
  match x with
  | PRule r => inner_rule r
  | PSeq e1 e2 | PAlt e1 e2 => inner e1 && inner e2
  | PStar e1 | PPlus e1 | PQuery e1 | PErr e1 _ => inner e1
  | _ => true
  end.
Lemma rules_inner : forall r, inner_rule r || lex_rule r = true -> inner (CG r) = true.
Proof. intros r H. destruct r; try discriminate H; vm_compute; reflexivity. Qed.
Lemma vis_inner : forall n x s, inner x = true -> Forall (fun v => leaves_of inp v []) (vis n x s).
Proof.
  induction n as [|n IH]; intros x s H; [constructor|].
  destruct x; cbn [visits]; cbn [inner] in H; try constructor.
  - destruct (runc n (CG r) s) as [s1| | |]; constructor.
    + destruct r; try discriminate H; reflexivity.
    + apply IH, rules_inner. rewrite H. reflexivity.
  - apply andb_prop in H. destruct H as [H1 H2]. destruct (runc n x1 s) as [s1| | |]; try constructor.
    apply Forall_app. split; auto.
  - apply andb_prop in H. destruct H as [H1 H2]. destruct (runc n x1 s) as [s1| | |]; try constructor; auto.
  - destruct (runc n x s) as [s1| | |]; try constructor. apply Forall_app. split; auto.
  - destruct (runc n x s) as [s1| | |]; try constructor. apply Forall_app. split; auto.
  - destruct (runc n x s) as [s1| | |]; try constructor; auto.
  - destruct (runc n x s) as [s1| | |]; try constructor; auto.
Qed.

(** expressions that make no leaves outside the rules for them *)
Definition plain_act (t : action) : bool := forallb (fun c => negb (leafy c)) (ctors t).
Fixpoint leafless (x : cexp) : bool :=
  match x with
  | PAct t | PPred (QDo t) => plain_act t
  | PSeq e1 e2 | PAlt e1 e2 => leafless e1 && leafless e2
  | PStar e1 | PPlus e1 | PQuery e1 | PErr e1 _ => leafless e1
  | _ => true
  end.
Definition alias_rule (r : rule) : bool := match r with R_return_projection => true | _ => false end.
Lemma rules_leafless : forall r, lex_rule r = false -> alias_rule r = false -> leafless (CG r) = true.
Proof.
  assert (K : forallb (fun r => lex_rule r || (alias_rule r || leafless (CG r))) all_rules = true) by (vm_compute; reflexivity).
  intros r H1 H2. rewrite forallb_forall in K. specialize (K r (all_rules_complete r)). rewrite H1, H2 in K. exact K.
Qed.

Lemma seq_vis : forall n e1 e2 s s', runc n (e1 ⋅ e2) s = ROk s' ->
  exists m s1, m < n /\ runc m e1 s = ROk s1 /\ runc m e2 s1 = ROk s' /\ vis n (e1 ⋅ e2) s = vis m e1 s ++ vis m e2 s1.
Proof.
  intros [|n] e1 e2 s s' H; [discriminate|]. cbn [Peg.run visits] in *. destruct (runc n e1 s) as [s1|s1| |] eqn:E; try discriminate.
  exists n, s1. auto.
Qed.
Lemma alt_vis : forall n e1 e2 s s', runc n (e1 ∥ e2) s = ROk s' ->
  exists m, m < n /\ ((runc m e1 s = ROk s' /\ vis n (e1 ∥ e2) s = vis m e1 s) \/
    exists s1, runc m e2 (restore s s1) = ROk s' /\ vis n (e1 ∥ e2) s = vis m e2 (restore s s1)).
Proof.
  intros [|n] e1 e2 s s' H; [discriminate|]. cbn [Peg.run visits] in *. exists n. split; [lia|].
  destruct (runc n e1 s) as [s1|s1| |] eqn:E; try discriminate.
  - left. split; [exact H|reflexivity].
  - right. exists s1. auto.
Qed.

(* the thunks of a run are balanced *)
Lemma run_bal : forall n e s s' l, runc n e s = ROk s' -> thunks s' = rev l ++ thunks s -> balx e 0 = Some 0 -> bal l 0 = Some 0.
Proof.
  intros n e s s' l H HT HB. destruct (run_leaves _ _ _ _ (adapted_CG _ _ _) _ _ _ _ H) as [l1 [L1 L2]].
  assert (l = l1) as ->.
  { rewrite HT in L2. apply app_inv_tail in L2. apply (f_equal (@rev _)) in L2. rewrite !rev_involutive in L2. exact L2. }
  eapply emits_bal; eauto.
Qed.

Lemma alias_run : forall n s s',
  (forall m e a b, m < n -> leafless e = true -> pos a <= List.length inp -> runc m e a = ROk b -> did (vis m e a) a b) ->
  pos s <= List.length inp -> runc n (CG R_return_projection) s = ROk s' ->
  did ((R_return_projection, pos s, pos s') :: vis n (CG R_return_projection) s) s s'.
Proof.
  intros n s s' IH Hp H.
  assert (IH2 : forall m e (a b : cst), runc m e a = ROk b -> m < n -> pos a <= List.length inp -> leafless e = true -> did (vis m e a) a b)
    by (intros; apply IH; assumption).
  pose proof (run_ok_pos _ _ _ _ _ _ _ H) as Hss.
  change (CG R_return_projection) with (PAct (TPush 2) ⋅ (PPred (QDo TBlockStart) ⋅ PRule R__block_start_ ⋅ bind 0 R_expression ⋅
    (PRule R_AS ⋅ bind 1 R_identifier ⋅ PRule R__block_merge_ ∥ bind 1 R__null_ ⋅ PRule R__block_merge_ ⋅
      PAct (TDo [SIfNotIdent (AVar 0) (SLet (LVar 1) (RMk K_block_identifier []))])) ⋅
    PPred (QDo TBlockEnd) ⋅ PAct (TDo [SLet LRet (RMk K_projection [AVar 0; AVar 1])])) ⋅ PAct (TPop 2) : cexp) in *.
  apply seq_vis in H. destruct H as (k1 & sa & N1 & Ha & H & V1).
  pose proof (IH2 _ _ _ _ Ha N1 Hp eq_refl) as Da. apply run_act in Ha. destruct Ha as [Pa Ta].
  apply seq_vis in H. destruct H as (k2 & sz & N2 & H & Hz & V2).
  apply seq_vis in H. destruct H as (k3 & sb & N3 & Hb & H & V3).
  assert (Hpa : pos sa <= List.length inp) by congruence.
  pose proof (IH2 _ _ _ _ Hb ltac:(lia) Hpa eq_refl) as Db. apply run_pdo in Hb. destruct Hb as [Pb Tb].
  apply seq_vis in H. destruct H as (k4 & sc & N4 & Hc & H & V4).
  assert (Hpb : pos sb <= List.length inp) by congruence.
  pose proof (IH2 _ _ _ _ Hc ltac:(lia) Hpb eq_refl) as Dc. apply run_start in Hc. destruct Hc as [Pc Tc].
  assert (Hpc : pos sc <= List.length inp) by congruence.
  apply seq_vis in H. destruct H as (k5 & sd & N5 & Hd & H & V5).
  pose proof (IH2 _ _ _ _ Hd ltac:(lia) Hpc eq_refl) as Dd. pose proof (match_bound col off inp _ _ _ _ Hpc Hd) as Hpd.
  apply seq_vis in H. destruct H as (k6 & se & N6 & He & H & V6).
  apply seq_vis in H. destruct H as (k7 & sf & N7 & Hf & Hg & V7).
  pose proof (match_bound col off inp _ _ _ _ Hpd He) as Hpe.
  pose proof (IH2 _ _ _ _ Hf ltac:(lia) Hpe eq_refl) as Df. apply run_pdo in Hf. destruct Hf as [Pf Tf].
  assert (Hpf : pos sf <= List.length inp) by congruence.
  pose proof (IH2 _ _ _ _ Hg ltac:(lia) Hpf eq_refl) as Dg. apply run_act in Hg. destruct Hg as [Pg Tg].
  assert (Hpz : pos sz <= List.length inp) by congruence.
  pose proof (IH2 _ _ _ _ Hz ltac:(lia) Hpz eq_refl) as Dz. apply run_act in Hz. destruct Hz as [Pz Tz].
  assert (Epos : pos s' = pos se) by congruence.
  apply alt_vis in He. destruct He as (k8 & N8 & [[He V8]|(sx & He & V8)]).
  - pose proof (IH k8 (PRule R_AS ⋅ bind 1 R_identifier ⋅ PRule R__block_merge_) sd se ltac:(lia) eq_refl Hpd He) as De.
    rewrite V1, V2, V3, V4, V5, V6, V7, V8.
    assert (D : did (vis k1 (PAct (TPush 2)) s ++ ((vis k3 (PPred (QDo TBlockStart)) sa ++ vis k4 (PRule R__block_start_) sb ++
      vis k5 (bind 0 R_expression) sc ++ vis k8 (PRule R_AS ⋅ bind 1 R_identifier ⋅ PRule R__block_merge_) sd ++
      vis k7 (PPred (QDo TBlockEnd)) se ++ vis k7 (PAct (TDo [SLet LRet (RMk K_projection [AVar 0; AVar 1])])) sf)) ++
      vis k2 (PAct (TPop 2)) sz) s s').
    { eapply did_app; [exact Da|]. eapply did_app; [|exact Dz]. eapply did_app; [exact Db|]. eapply did_app; [exact Dc|].
      eapply did_app; [exact Dd|]. eapply did_app; [exact De|]. eapply did_app; eauto. }
    destruct D as (l & D1 & D2). exists l. split; [exact D1|]. apply may_quiet; [left; reflexivity|exact D2].
  - set (sd' := restore sd sx) in *. apply seq_vis in He. destruct He as (k9 & sg & N9 & Hg & He & V9).
    assert (Hpd' : pos sd' <= List.length inp) by exact Hpd.
    pose proof (IH k9 (bind 1 R__null_) sd' sg ltac:(lia) eq_refl Hpd' Hg) as Dn.
    pose proof (match_bound col off inp _ _ _ _ Hpd' Hg) as Hpg.
    apply seq_vis in He. destruct He as (k10 & sh & N10 & Hh & Hi & V10).
    pose proof (IH2 _ _ _ _ Hh ltac:(lia) Hpg eq_refl) as Dh. apply run_merge in Hh. destruct Hh as [Ph Th].
    apply run_act in Hi. destruct Hi as [Pi Ti].
    rewrite V1, V2, V3, V4, V5, V6, V7, V8, V9, V10.
    replace (vis k10 (PAct (TDo [SIfNotIdent (AVar 0) (SLet (LVar 1) (RMk K_block_identifier []))])) sh) with (@nil (rule * nat * nat))
      by (destruct k10; reflexivity).
    destruct Dd as (l1 & L1 & M1). destruct Dn as (l2 & L2 & M2).
    pose proof (run_bal _ _ _ _ _ Hd L1 eq_refl) as B1. pose proof (run_bal _ _ _ _ _ Hg L2 eq_refl) as B2.
    assert (BL : bal (l1 ++ l2) 0 = Some 0) by (rewrite (bal_app _ _ _ _ B1); exact B2).
    assert (MM : exists l w, thunks se = rev (([(TBlockStart, pos s)] ++ (l1 ++ l2) ++ [(TBlockMerge, pos s')]) ++ [(TDo [SIfNotIdent (AVar 0) (SLet (LVar 1) (RMk K_block_identifier []))], pos sh)]) ++ thunks sb /\ w = l /\ l = tt).
    { exists tt, tt. split; [|auto]. rewrite Ti, Th, L2. change (thunks sd') with (thunks sd). rewrite L1, Tc.
      replace (pos sg) with (pos s') by congruence. replace (pos sb) with (pos s) by congruence.
      rewrite !rev_app_distr. cbn [rev app]. rewrite <- !app_assoc. reflexivity. }
    destruct MM as (_ & _ & TE & _).
    set (mid := ([(TBlockStart, pos s)] ++ (l1 ++ l2) ++ [(TBlockMerge, pos s')]) ++
      [(TDo [SIfNotIdent (AVar 0) (SLet (LVar 1) (RMk K_block_identifier []))], pos sh)]) in *.
    assert (MV : may (vis k4 (PRule R__block_start_) sb ++ vis k5 (bind 0 R_expression) sc ++ vis k9 (bind 1 R__null_) sd' ++
      vis k10 (PRule R__block_merge_) sg) ([(TBlockStart, pos s)] ++ (l1 ++ l2) ++ [(TBlockMerge, pos s')])).
    { destruct Dc as (lc & C1 & C2). destruct Dh as (lh & H1 & H2).
      assert (lc = [(TBlockStart, pos s)]) as ->.
      { rewrite Tc in C1. apply (app_inv_tail (thunks sb) [_]) in C1. apply (f_equal (@rev _)) in C1. rewrite rev_involutive in C1.
        rewrite <- C1. replace (pos sb) with (pos s) by congruence. reflexivity. }
      assert (lh = [(TBlockMerge, pos s')]) as ->.
      { rewrite Th in H1. apply (app_inv_tail (thunks sg) [_]) in H1. apply (f_equal (@rev _)) in H1. rewrite rev_involutive in H1.
        rewrite <- H1. replace (pos sg) with (pos s') by congruence. reflexivity. }
      apply may_app; [exact C2|]. rewrite <- app_assoc. apply may_app; [exact M1|]. apply may_app; assumption. }
    assert (MX : forall pre post v1 v2, may v1 pre -> may v2 post ->
      may ((R_return_projection, pos s, pos s') :: v1 ++ (vis k4 (PRule R__block_start_) sb ++ vis k5 (bind 0 R_expression) sc ++ vis k9 (bind 1 R__null_) sd' ++
      vis k10 (PRule R__block_merge_) sg) ++ v2) (pre ++ mid ++ post)).
    { intros pre post v1 v2 HP HQ e a a' HI HE. rewrite exec_app in HE.
      destruct (exec e pre a) as [b| | |] eqn:E1; cbn [xbind] in HE; try discriminate. rewrite exec_app in HE.
      destruct (exec e mid b) as [c| | |] eqn:E2; cbn [xbind] in HE; try discriminate.
      destruct (alias_leaf _ _ _ _ _ _ _ _ BL HI E2) as (b1 & E3 & w & n2 & W & S2 & P2).
      destruct (HP _ _ _ HI E1) as (la & na & F1 & S1 & P1). destruct (MV _ _ _ HI E3) as (lb & nb & F3 & S3 & P3).
      destruct (HQ _ _ _ HI HE) as (lc & nc & F4 & S4 & P4).
      exists (w :: la ++ lb ++ lc), (na ++ (nb ++ n2) ++ nc). split; [|split].
      - constructor; [|apply Forall2_app; [exact F1|apply Forall2_app; assumption]].
        destruct W as [-> | ->]; [left; reflexivity|right; eexists; split; [exact Hss|split; [apply trim_trimmed|reflexivity]]].
      - eapply steps_app; [exact S1|]. eapply steps_app; [|exact S4]. eapply steps_app; eassumption.
      - cbn [List.concat]. rewrite !filter_app, !concat_app, !map_app.
        eapply Permutation_trans; [apply Permutation_app; [exact P1|apply Permutation_app; [apply Permutation_app; [exact P3|exact P2]|exact P4]]|].
        eapply Permutation_trans; [|apply Permutation_app_comm]. rewrite <- !app_assoc.
        apply Permutation_app_head. apply Permutation_app_head. apply Permutation_app_comm. }
    destruct (did_app _ _ _ _ _ Da Db) as (pre & R1 & R2). destruct (did_app _ _ _ _ _ (did_app _ _ _ _ _ Df Dg) Dz) as (post & Q1 & Q2).
    exists (pre ++ mid ++ post). split.
    + rewrite Q1, TE, R1. rewrite !rev_app_distr, <- !app_assoc. reflexivity.
    + specialize (MX _ _ _ _ R2 Q2). rewrite <- !app_assoc in MX. rewrite app_nil_r. rewrite <- !app_assoc. exact MX.
Qed.

Lemma run_may : forall n e s s', leafless e = true -> pos s <= List.length inp -> runc n e s = ROk s' -> did (vis n e s) s s'.
Proof.
  induction n as [n IHn] using lt_wf_ind. intros e s s' HC Hp Hx. destruct n as [|n]; [discriminate|].
  assert (IH : forall e a b, leafless e = true -> pos a <= List.length inp -> runc n e a = ROk b -> did (vis n e a) a b)
    by (intros; apply IHn; auto).
  destruct e; cbn [Peg.run] in Hx; cbn [visits]; cbn [leafless] in HC.
  - destruct (get_of inp (pos s)); [|discriminate]. injection Hx as <-. apply did_nil. reflexivity.
  - destruct (get_of inp (pos s)); [destruct (beq c a)|]; try discriminate. injection Hx as <-. apply did_nil. reflexivity.
  - destruct (match_str _ s0 (pos s) (pos s)); [|discriminate]. injection Hx as <-. apply did_nil. reflexivity.
  - destruct (get_of inp (pos s)); [destruct (in_class cs a)|]; try discriminate. injection Hx as <-. apply did_nil. reflexivity.
  - destruct (runc n (CG r) s) as [s1|s1| |] eqn:H1; try discriminate. injection Hx as <-.
    destruct (lex_rule r) eqn:Hr.
    { destruct (lex_rule_run _ _ _ _ Hr Hp H1) as (l & ls & L1 & L2 & L3). exists l. split; [exact L1|].
      eapply may_leaf; eauto. apply vis_inner, rules_inner. rewrite Hr. apply orb_true_r. }
    destruct (alias_rule r) eqn:Ha.
    { destruct r; try discriminate Ha. apply alias_run; [|exact Hp|exact H1]. intros m x a b Hm. apply IHn. lia. }
    destruct (IH _ _ _ (rules_leafless _ Hr Ha) Hp H1) as (l & L1 & L2). exists l. split; [exact L1|].
    apply may_quiet; [|exact L2]. destruct r; try discriminate Hr; try discriminate Ha; reflexivity.
  - apply andb_prop in HC. destruct HC as [C1 C2]. destruct (runc n e1 s) as [s1|s1| |] eqn:H1; try discriminate.
    pose proof (match_bound col off inp n e1 s s1 Hp H1) as Hp1. eapply did_app; eauto.
  - apply andb_prop in HC. destruct HC as [C1 C2]. destruct (runc n e1 s) as [s1|s1| |] eqn:H1; try discriminate.
    + injection Hx as <-. eauto.
    + apply (IH _ (restore s s1)) in Hx; auto.
  - destruct (runc n e s) as [s1|s1| |] eqn:H1; try discriminate.
    + pose proof (match_bound col off inp n e s s1 Hp H1) as Hp1. eapply did_app; eauto.
    + injection Hx as <-. apply did_nil. reflexivity.
  - destruct (runc n e s) as [s1|s1| |] eqn:H1; try discriminate.
    pose proof (match_bound col off inp n e s s1 Hp H1) as Hp1. eapply did_app; eauto.
  - destruct (runc n e s) as [s1|s1| |] eqn:H1; try discriminate.
    + injection Hx as <-. eauto.
    + injection Hx as <-. apply did_nil. reflexivity.
  - destruct (runc n e s) as [s1|s1| |] eqn:H1; try discriminate. injection Hx as <-. apply did_nil. reflexivity.
  - destruct (runc n e s) as [s1|s1| |] eqn:H1; try discriminate. injection Hx as <-. apply did_nil. reflexivity.
  - injection Hx as <-. eapply did_act; [exact HC|reflexivity].
  - unfold run_pred in Hx. destruct (cprun col off q (pos s) (get_of inp (pos s)) (user s)) as [[[b u] l]|] eqn:Hc; [|discriminate].
    destruct b; [|discriminate]. injection Hx as <-.
    destruct q; cbn [cprun] in Hc;
      try (destruct (c_op (user s)); [|discriminate]);
      try (destruct (do_err _ _ _ _ _); [|discriminate]);
      injection Hc; intros; subst;
      try (apply did_nil; reflexivity).
    eapply did_act; [exact HC|reflexivity].
  - destruct (runc n e s) as [s1|s1| |] eqn:H1; try discriminate.
    + injection Hx as <-. eauto.
    + destruct (run_pred (get_of inp) (cprun col off) q s1); discriminate.
Qed.
End Match.

(** ** A round and a call *)
Lemma leaf_forest : forall ts n,
  map leaf_view (filter is_leaf (forest (fst (set_ordinals_all ts n)))) = map leaf_view (filter is_leaf (forest ts)).
Proof.
  intros ts n. destruct (ordinals_all ts n) as [_ [H _]]. apply (f_equal forest) in H. rewrite !forest_erase in H.
  revert H. generalize (forest (fst (set_ordinals_all ts n))) (forest ts). clear.
  induction l as [|x l IH]; intros [|y m] H; try discriminate; [reflexivity|]. cbn [map] in H.
  assert (erase x = erase y /\ map erase l = map erase m) as [E1 E2] by (split; congruence).
  assert (is_leaf x = is_leaf y /\ leaf_view x = leaf_view y) as [V1 V2].
  { unfold is_leaf, leaf_view, text_of. destruct x, y. cbn in E1 |- *. injection E1 as _ -> -> -> _. auto. }
  cbn [filter]. rewrite V1. destruct (is_leaf y); cbn [map]; [rewrite V2; f_equal|]; apply IH; exact E2.
Qed.

Lemma produced_leaves : forall cf la fl inp o y p a u en seg,
  produced cf la (start_rule fl) inp o y p a u en seg ->
  exists s, crun (cf_color cf) (y_off y) (cfuel inp) inp (PRule (start_rule fl)) (match_start y) = ROk s /\ p = pos s /\
    exists ls, Forall2 (leaves_of inp) (visits (cf_color cf) (y_off y) inp (cfuel inp) (PRule (start_rule fl)) (match_start y)) ls /\
    Permutation (map leaf_view (filter is_leaf (forest (s_roots seg)))) (map (leaf_at (offset (y_off y))) (List.concat ls)).
Proof.
  intros cf la fl inp o y p a u en seg [[lines [HR _]] _ _ _ ->].
  pose proof (round_safe cf la (start_rule fl) inp y CG table (result_types fl) (start_entry fl)
    (adapted_CG _ _ _) table_checked (table_ends fl)) as H. rewrite HR in H.
  destruct H as [_ [E2 [_ [E4 [b [B1 _]]]]]].
  rewrite parse_one_eq in HR. apply finish_one_ok in HR. revert HR. unfold crun. generalize (cfuel inp). intros k HR.
  destruct HR as [s [HM [-> [-> [-> [HE _]]]]]]. exists s. split; [exact HM|]. split; [reflexivity|].
  destruct (run_may (cf_color cf) (y_off y) inp k (PRule (start_rule fl)) (match_start y) s eq_refl (Nat.le_0_l _) HM)
    as (l & L1 & L2).
  cbn [match_start thunks] in L1. rewrite app_nil_r in L1. rewrite L1, rev_involutive in HE.
  destruct (fun I => L2 _ _ _ I HE) as (ls & ns & F & N1 & N2); [reflexivity|]. exists ls. split; [exact F|]. cbn [e_off] in N2.
  apply steps_all in N1. unfold held in N1. rewrite E2, E4, B1 in N1. cbn in N1. rewrite !app_nil_r in N1.
  unfold round_segment. rewrite B1.
  destruct (make_segment_fields o (mkrange (y_off y) en) (a_errs a) (b_kids b) (a_result a) (a_eof a)) as [_ [_ [-> _]]].
  rewrite leaf_forest. eapply Permutation_trans; [|exact N2]. apply Permutation_map, filter_perm.
  eapply Permutation_trans; [exact N1|]. apply Permutation_sym, Permutation_rev.
Qed.

Lemma leaf_at_add : forall d k x, leaf_at k (leaf_at d x) = leaf_at (d + k) x.
Proof. intros d k [[[ty t] p] q]. cbn. f_equal; [f_equal|]; lia. Qed.
Lemma one_leaf_shift : forall ty shape inp d p q l, one_leaf ty shape (skipn d inp) p q l ->
  one_leaf ty shape inp (d + p) (d + q) (map (leaf_at d) l).
Proof.
  intros ty shape inp d p q l (e & t & H1 & H2 & H3 & ->). rewrite slice_shift in H2, H3.
  exists (d + e), t. split; [lia|]. auto.
Qed.
Lemma leaves_shift : forall inp d v l, leaves_of (skipn d inp) v l -> leaves_of inp (moved d v) (map (leaf_at d) l).
Proof.
  intros inp d [[r p] q] l H. unfold moved. destruct r; cbn [leaves_of] in *; try (subst l; reflexivity); try (apply one_leaf_shift; exact H).
  destruct H as [-> |(t & H0 & H1 & ->)]; [left; reflexivity|]. right. rewrite slice_shift in H1. exists t. split; [lia|]. auto.
Qed.

Lemma parse_each_leaves : forall cf la cb fl inp ret segs last seg,
  parse_each cf la cb fl inp = PRet ret segs last -> In seg segs ->
  exists uses ls, matched_with cf fl inp seg uses /\ Forall2 (leaves_of inp) uses ls /\
    Permutation (map leaf_view (filter is_leaf (forest (s_roots seg))))
      (map (leaf_at (offset (cf_position cf))) (List.concat ls)).
Proof.
  intros cf la cb fl inp ret segs last seg H Hs. apply parse_each_chain in H. destruct H as [c [H _]].
  apply chain_at in H. rewrite Forall_forall in H. destruct (H seg Hs) as (d & o & y & p & a & u & en & D1 & D2 & D3).
  cbn [carry0 y_off] in D3.
  pose proof (produced_offset _ _ _ _ _ _ _ _ _ _ _ D2) as HO. destruct (produced_seg _ _ _ _ _ _ _ _ _ _ _ D2) as [S1 S2].
  destruct (produced_leaves _ _ _ _ _ _ _ _ _ _ _ D2) as (s & M & -> & ls & U1 & U2).
  eexists. exists (map (map (leaf_at d)) ls). split; [|split].
  - exists d, y, s. rewrite S1, S2. split; [exact D3|]. split; [exact M|]. split; [lia|]. reflexivity.
  - clear - U1. induction U1; constructor; auto. apply leaves_shift. assumption.
  - rewrite D3 in U2. eapply Permutation_trans; [exact U2|]. rewrite <- concat_map, map_map.
    erewrite map_ext; [apply Permutation_refl|]. intros x. cbn. symmetry. apply leaf_at_add.
Qed.
