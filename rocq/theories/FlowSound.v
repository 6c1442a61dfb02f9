(** * Soundness of the analysis of Flow.v *)
From Coq Require Import List Bool Arith NArith Lia.
From Verif Require Import Peg QuickModel ErrModel CypherSyntax CypherGrammar AstTypes AstModel CypherBuild CypherExec Flow AstProofs CypherSpec AstSpec SafeSpec NodeHeld.
Import ListNotations.

(** ** Sets of types *)
Lemma tsub_in : forall a b t, tsub a b = true -> tin t a = true -> tin t b = true.
Proof.
  intros a b t H1 H2. unfold tsub, tin in *. apply N.eqb_eq in H1. rewrite <- H1, N.land_spec in H2.
  apply andb_prop in H2. tauto.
Qed.
Lemma tunion_in : forall a b t, tin t (tunion a b) = (tin t a || tin t b).
Proof. intros. unfold tin, tunion. apply N.lor_spec. Qed.
Lemma tmeet_out : forall a b t, tmeet a b = false -> tin t a = true -> tin t b = false.
Proof.
  intros a b t H1 H2. unfold tmeet, tin in *. apply negb_false_iff, N.eqb_eq in H1.
  pose proof (N.land_spec a b (tnum t)) as H. rewrite H1, N.bits_0, H2 in H. destruct (N.testbit b (tnum t)); auto.
Qed.
Lemma tin_0 : forall t, tin t 0%N = false.
Proof. intros t. apply N.bits_0. Qed.
Lemma tone_in : forall t, tin t (tone t) = true.
Proof. intros t. unfold tin, tone. apply N.setbit_eq. Qed.
Lemma tnum_inj : forall a b, tnum a = tnum b -> a = b.
Proof.
  intros a b H. apply Nat2N.inj in H. rewrite <- (idx_type_idx a), <- (idx_type_idx b). congruence.
Qed.

Lemma below_tab_ok : below_tab = map below_of all_types.
Proof. vm_compute. reflexivity. Qed.
Lemma below_is : forall t, below t = below_of t.
Proof.
  intros t. unfold below. rewrite below_tab_ok.
  assert (H : forall l k d, k < List.length l -> nth k (map below_of l) 0%N = below_of (nth k l d)).
  { induction l as [|y l IHl]; intros k d Hk; cbn [List.length] in Hk; [lia|]. destruct k; cbn [nth map]; [reflexivity|].
    apply IHl. lia. }
  pose proof (idx_type_idx t) as E. unfold idx_type in E.
  rewrite (H all_types (type_idx t) T_STATEMENT), E; [reflexivity|].
  destruct t; cbn; repeat constructor.
Qed.
Lemma below_in : forall x t, tin x (below t) = is_ty x t.
Proof.
  intros x t. rewrite below_is. unfold below_of.
  assert (H : forall l, tin x (fold_right (fun x acc => if is_ty x t then N.setbit acc (tnum x) else acc) 0%N l)
            = (is_ty x t && existsb (fun y => N.eqb (tnum y) (tnum x)) l)).
  { induction l as [|y l IH]; cbn [fold_right existsb]; [rewrite andb_false_r; apply tin_0|].
    destruct (is_ty y t) eqn:Ey.
    - unfold tin. rewrite N.setbit_eqb. unfold tin in IH. rewrite IH.
      destruct (N.eqb (tnum y) (tnum x)) eqn:E; cbn [orb].
      + apply N.eqb_eq, tnum_inj in E. subst. rewrite Ey. reflexivity.
      + reflexivity.
    - rewrite IH. destruct (N.eqb (tnum y) (tnum x)) eqn:E; [|reflexivity].
      apply N.eqb_eq, tnum_inj in E. subst. rewrite Ey. reflexivity. }
  rewrite H. assert (existsb (fun y => N.eqb (tnum y) (tnum x)) all_types = true) as ->; [|apply andb_true_r].
  apply existsb_exists. exists x. split; [apply all_types_all|apply N.eqb_refl].
Qed.
Lemma sub_below : forall s t n, tsub s (below t) = true -> tin (nty n) s = true -> is_a n t = true.
Proof.
  intros s t n H1 H2. pose proof (tsub_in _ _ _ H1 H2) as H. rewrite below_in in H. exact H.
Qed.
Lemma sub_below2 : forall s t1 t2 n, tsub s (tunion (below t1) (below t2)) = true -> tin (nty n) s = true ->
  is_a n t1 || is_a n t2 = true.
Proof.
  intros s t1 t2 n H1 H2. pose proof (tsub_in _ _ _ H1 H2) as H. rewrite tunion_in, !below_in in H. exact H.
Qed.

(** ** Sequences *)
Definition group (X : list tset) (g : list node) : Prop := Forall2 (fun t n => tin (nty n) t = true) X g.

Fixpoint seq_in (s : aseq) (l : list node) : Prop :=
  match s with
  | [] => l = []
  | One t :: s => exists n l', l = n :: l' /\ tin (nty n) t = true /\ seq_in s l'
  | Many X :: s => exists gs l', l = List.concat gs ++ l' /\ Forall (group X) gs /\ seq_in s l'
  end.

Lemma all2_Forall2 : forall X Y (f : X -> Y -> bool) a b, all2 f a b = true -> Forall2 (fun x y => f x y = true) a b.
Proof.
  induction a as [|x a IH]; intros [|y b] H; try discriminate H; constructor; cbn in H; apply andb_prop in H; [tauto|].
  apply IH. tauto.
Qed.

Lemma group_le : forall X Y g, all2 tsub X Y = true -> group X g -> group Y g.
Proof.
  intros X Y g H. apply all2_Forall2 in H. revert g. induction H; intros g Hg; inversion Hg; subst; constructor.
  - eapply tsub_in; eauto.
  - apply IHForall2. auto.
Qed.

Lemma split_ones_in : forall X a a' l, split_ones X a = Some a' -> seq_in a l ->
  exists g l', l = g ++ l' /\ group X g /\ seq_in a' l'.
Proof.
  induction X as [|t X IH]; intros a a' l H1 H2; cbn in H1.
  - injection H1 as <-. exists [], l. repeat split; [constructor|auto].
  - destruct a as [|[t'|] a]; try discriminate. destruct (tsub t' t) eqn:E; [|discriminate].
    destruct H2 as [n [l' [-> [Hn Hl]]]]. destruct (IH _ _ _ H1 Hl) as [g [l2 [-> [Hg Hl2]]]].
    exists (n :: g), l2. repeat split; auto. constructor; [eapply tsub_in; eauto|auto].
Qed.

Lemma seq_le_in : forall n a b l, seq_le n a b = true -> seq_in a l -> seq_in b l.
Proof.
  induction n as [|n IH]; intros a b l H Ha; [discriminate|]. cbn in H.
  destruct b as [|[t'|Y] b'].
  - destruct a; [exact Ha|discriminate].
  - destruct a as [|[t|] a']; try discriminate. apply andb_prop in H. destruct H as [H1 H2].
    destruct Ha as [x [l' [-> [Hx Hl]]]]. exists x, l'. repeat split; [eapply tsub_in; eauto|eauto].
  - apply orb_prop in H. destruct H as [H|H].
    + exists [], l. repeat split; [constructor|eauto].
    + destruct a as [|[t|X] a']; [discriminate| |].
      * destruct Y as [|ty Y]; [discriminate|]. destruct (split_ones (ty :: Y) (One t :: a')) as [a2|] eqn:E; [|discriminate].
        destruct (split_ones_in _ _ _ _ E Ha) as [g [l' [-> [Hg Hl]]]].
        destruct (IH _ _ _ H Hl) as [gs [l2 [-> [Hgs Hl2]]]].
        exists (g :: gs), l2. cbn. rewrite app_assoc. repeat split; auto.
      * apply andb_prop in H. destruct H as [H1 H2]. destruct Ha as [gs [l' [-> [Hgs Hl]]]].
        destruct (IH _ _ _ H2 Hl) as [gs2 [l2 [-> [Hgs2 Hl2]]]].
        exists (gs ++ gs2), l2. rewrite concat_app, app_assoc. repeat split; auto.
        apply Forall_app. split; [|auto]. eapply Forall_impl; [|exact Hgs]. intros g. apply group_le. auto.
Qed.

Lemma seq_in_app : forall s1 s2 l, seq_in (s1 ++ s2) l <-> exists l1 l2, l = l1 ++ l2 /\ seq_in s1 l1 /\ seq_in s2 l2.
Proof.
  induction s1 as [|[t|X] s1 IH]; intros s2 l; cbn.
  - split; [intros H; exists [], l; auto|intros [l1 [l2 [-> [-> H]]]]; exact H].
  - split.
    + intros [n [l' [-> [Hn H]]]]. apply IH in H. destruct H as [l1 [l2 [-> [H1 H2]]]].
      exists (n :: l1), l2. split; [reflexivity|]. split; [exists n, l1; auto|auto].
    + intros [l1 [l2 [-> [[n [l' [-> [Hn H1]]]] H2]]]]. exists n, (l' ++ l2). split; [reflexivity|]. split; [auto|].
      apply IH. exists l', l2. auto.
  - split.
    + intros [gs [l' [-> [Hg H]]]]. apply IH in H. destruct H as [l1 [l2 [-> [H1 H2]]]].
      exists (List.concat gs ++ l1), l2. rewrite app_assoc. split; [reflexivity|]. split; [exists gs, l1; auto|auto].
    + intros [l1 [l2 [-> [[gs [l' [-> [Hg H1]]]] H2]]]]. exists gs, (l' ++ l2). rewrite app_assoc. split; [reflexivity|].
      split; [auto|]. apply IH. exists l', l2. auto.
Qed.

Lemma exact_len_in : forall s n l, exact_len s = Some n -> seq_in s l -> List.length l = n.
Proof.
  induction s as [|[t|X] s IH]; intros n l H Hl; cbn in H; try discriminate.
  - injection H as <-. rewrite Hl. reflexivity.
  - destruct (exact_len s); [|discriminate]. injection H as <-. destruct Hl as [x [l' [-> [_ Hl]]]]. cbn. f_equal. eauto.
Qed.

Lemma min_len_in : forall s l, seq_in s l -> min_len s <= List.length l.
Proof.
  induction s as [|[t|X] s IH]; intros l Hl; cbn.
  - lia.
  - destruct Hl as [x [l' [-> [_ Hl]]]]. cbn. apply IH in Hl. lia.
  - destruct Hl as [gs [l' [-> [_ Hl]]]]. rewrite app_length. apply IH in Hl. lia.
Qed.

Lemma group_len : forall X g, group X g -> List.length g = List.length X.
Proof. intros X g H. induction H; cbn; auto. Qed.

Lemma seq_even_in : forall s b l, seq_even s = Some b -> seq_in s l -> Nat.even (List.length l) = b.
Proof.
  induction s as [|[t|X] s IH]; intros b l H Hl; cbn in H.
  - injection H as <-. rewrite Hl. reflexivity.
  - destruct (seq_even s) as [b'|]; [|discriminate]. injection H as <-. destruct Hl as [x [l' [-> [_ Hl]]]].
    cbn [List.length]. rewrite Nat.even_succ, <- Nat.negb_even. f_equal. eauto.
  - destruct (Nat.even (List.length X)) eqn:E; [|discriminate]. destruct Hl as [gs [l' [-> [Hg Hl]]]].
    rewrite app_length, Nat.even_add, (IH _ _ H Hl).
    assert (Nat.even (List.length (List.concat gs)) = true) as ->; [|destruct b; reflexivity].
    clear -E Hg. induction Hg; [reflexivity|]. cbn. rewrite app_length, Nat.even_add, IHHg, (group_len _ _ H), E. reflexivity.
Qed.

Lemma group_types : forall X acc g n, group X g -> In n g -> tin (nty n) (fold_right tunion acc X) = true.
Proof.
  intros X acc g n H. induction H; cbn; [tauto|]. rewrite tunion_in. intros [-> |Hi].
  - rewrite H. reflexivity.
  - rewrite IHForall2 by auto. apply orb_true_r.
Qed.
Lemma acc_types : forall X acc t, tin t acc = true -> tin t (fold_right tunion acc X) = true.
Proof. induction X; cbn; intros; auto. rewrite tunion_in, IHX by auto. apply orb_true_r. Qed.

Lemma seq_types_in : forall s l n, seq_in s l -> In n l -> tin (nty n) (seq_types s) = true.
Proof.
  induction s as [|[t|X] s IH]; intros l n H Hn.
  - cbn in H. rewrite H in Hn. destruct Hn.
  - change (seq_types (One t :: s)) with (tunion t (seq_types s)).
    destruct H as [x [l' [-> [Hx Hl]]]]. rewrite tunion_in. destruct Hn as [<- |Hn]; [rewrite Hx; reflexivity|].
    rewrite (IH _ _ Hl Hn). apply orb_true_r.
  - change (seq_types (Many X :: s)) with (fold_right tunion (seq_types s) X). destruct H as [gs [l' [-> [Hg Hl]]]]. apply in_app_or in Hn. destruct Hn as [Hn|Hn].
    + apply in_concat in Hn. destruct Hn as [g [H1 H2]]. rewrite Forall_forall in Hg. eapply group_types; eauto.
    + apply acc_types. eapply IH; eauto.
Qed.

Lemma item_types_in : forall i l n, seq_in [i] l -> In n l -> tin (nty n) (item_types i) = true.
Proof.
  intros i l n H Hn. pose proof (seq_types_in _ _ _ H Hn) as K. destruct i; cbn in *; [|exact K].
  rewrite tunion_in, tin_0, orb_false_r in K. exact K.
Qed.

Lemma all_are_in : forall v s t n, all_are v s t = true -> tin (nty n) s = true -> Bool.eqb (is_a n t) v = true.
Proof.
  intros [] s t n H Hn; unfold all_are in H.
  - rewrite (sub_below _ _ _ H Hn). reflexivity.
  - apply negb_true_iff in H. pose proof (tmeet_out _ _ _ H Hn) as K. rewrite below_in in K.
    unfold is_a. unfold is_ty in K. rewrite K. reflexivity.
Qed.

Lemma seq_split_app : forall v t s a b, seq_split v t s = (a, b) -> s = a ++ b.
Proof.
  induction s as [|i s IH]; intros a b H; cbn in H; [injection H as <- <-; reflexivity|].
  destruct (all_are v (item_types i) t).
  - destruct (seq_split v t s) as [a' b']. injection H as <- <-. cbn. f_equal. auto.
  - injection H as <- <-. reflexivity.
Qed.

Lemma seq_split_all : forall v t s a b l n, seq_split v t s = (a, b) -> seq_in a l -> In n l ->
  Bool.eqb (is_a n t) v = true.
Proof.
  induction s as [|i s IH]; intros a b l n H Ha Hn; cbn in H.
  - injection H as <- <-. cbn in Ha. subst. destruct Hn.
  - destruct (all_are v (item_types i) t) eqn:E.
    + destruct (seq_split v t s) as [a' b'] eqn:E2. injection H as <- <-.
      apply (seq_in_app [i] a') in Ha. destruct Ha as [l1 [l2 [-> [H1 H2]]]]. apply in_app_or in Hn. destruct Hn as [Hn|Hn].
      * eapply all_are_in; [exact E|]. eapply item_types_in; eauto.
      * eapply IH; eauto.
    + injection H as <- <-. cbn in Ha. subst. destruct Hn.
Qed.

Lemma take_drop : forall (f : node -> bool) l1 l2, (forall n, In n l1 -> f n = true) -> (forall n, In n l2 -> f n = false) ->
  take_while f (l1 ++ l2) = l1 /\ drop_while f (l1 ++ l2) = l2.
Proof.
  induction l1 as [|x l1 IH]; intros l2 H1 H2; cbn.
  - destruct l2 as [|y l2]; cbn; [auto|]. rewrite H2 by (left; auto). auto.
  - rewrite H1 by (left; auto). destruct (IH l2) as [-> ->]; auto. intros; apply H1; right; auto.
Qed.

Lemma seq_cut : forall v t s a b l, seq_split v t s = (a, b) -> all_are (negb v) (seq_types b) t = true -> seq_in s l ->
  exists l1 l2, l = l1 ++ l2 /\ seq_in a l1 /\ seq_in b l2 /\
    take_while (fun n => Bool.eqb (is_a n t) v) l = l1 /\ drop_while (fun n => Bool.eqb (is_a n t) v) l = l2.
Proof.
  intros v t s a b l H1 H2 Hl. pose proof (seq_split_app _ _ _ _ _ H1) as ->.
  apply seq_in_app in Hl. destruct Hl as [l1 [l2 [-> [Ha Hb]]]]. exists l1, l2.
  split; [auto|]. split; [auto|]. split; [auto|]. apply take_drop.
  - intros n Hn. eapply seq_split_all; eauto.
  - intros n Hn. pose proof (all_are_in _ _ _ n H2 (seq_types_in _ _ _ Hb Hn)) as K.
    destruct v, (is_a n t); cbn in *; congruence.
Qed.

(** ** Alternation *)
Fixpoint alts (t1 t2 : asttype) (b : bool) (l : list node) : Prop :=
  match l with
  | [] => True
  | n :: l => is_a n (if b then t1 else t2) = true /\ alts t1 t2 (negb b) l
  end.
Definition flip (b : bool) (n : nat) : bool := if Nat.even n then b else negb b.

Lemma alts_app : forall t1 t2 l1 l2 b, alts t1 t2 b l1 -> alts t1 t2 (flip b (List.length l1)) l2 -> alts t1 t2 b (l1 ++ l2).
Proof.
  induction l1 as [|n l1 IH]; intros l2 b H1 H2; cbn [alts List.app List.length] in *.
  - exact H2.
  - destruct H1 as [H0 H1]. split; [auto|]. apply IH; [auto|].
    replace (flip (negb b) (List.length l1)) with (flip b (S (List.length l1))); [exact H2|].
    unfold flip. rewrite Nat.even_succ, <- Nat.negb_even. destruct (Nat.even _), b; reflexivity.
Qed.

Lemma phase1_in : forall t1 t2 X g b b', phase1 t1 t2 b X = Some b' -> group X g ->
  alts t1 t2 b g /\ b' = flip b (List.length g).
Proof.
  intros t1 t2 X g b b' H Hg. revert b b' H. induction Hg; intros b b' H1; cbn [phase1] in H1.
  - injection H1 as <-. split; [exact I|reflexivity].
  - destruct (tsub x (below (if b then t1 else t2))) eqn:E; [|discriminate].
    destruct (IHHg _ _ H1) as [K1 K2]. split.
    + cbn. split; [eapply sub_below; eauto|auto].
    + rewrite K2. cbn [List.length]. unfold flip. rewrite Nat.even_succ, <- Nat.negb_even. destruct (Nat.even _), b; reflexivity.
Qed.

Lemma flip_add : forall b n m, flip b (n + m) = flip (flip b n) m.
Proof. intros. unfold flip. rewrite Nat.even_add. destruct (Nat.even n), (Nat.even m), b; reflexivity. Qed.

Lemma phase_in : forall t1 t2 s l b b', phase t1 t2 b s = Some b' -> seq_in s l ->
  alts t1 t2 b l /\ b' = flip b (List.length l).
Proof.
  induction s as [|[t|X] s IH]; intros l b b' H Hl; cbn [phase] in H.
  - injection H as <-. rewrite Hl. split; [exact I|reflexivity].
  - destruct Hl as [n [l' [-> [Hn Hl]]]]. destruct (phase1 t1 t2 b [t]) as [b1|] eqn:E; [|discriminate].
    assert (group [t] [n]) as Hg by (repeat constructor; auto).
    destruct (phase1_in _ _ _ _ _ _ E Hg) as [K1 K2]. destruct (IH _ _ _ H Hl) as [L1 L2].
    change (n :: l') with ([n] ++ l'). split.
    + apply alts_app; [auto|]. rewrite <- K2. auto.
    + rewrite app_length, flip_add, <- K2. auto.
  - destruct (phase1 t1 t2 b X) as [b1|] eqn:E; [|discriminate]. destruct (Bool.eqb b b1) eqn:Eb; [|discriminate].
    apply eqb_prop in Eb. subst b1. destruct Hl as [gs [l' [-> [Hg Hl]]]]. destruct (IH _ _ _ H Hl) as [L1 L2].
    assert (K : alts t1 t2 b (List.concat gs) /\ b = flip b (List.length (List.concat gs))).
    { clear -E Hg. induction Hg; [split; [exact I|reflexivity]|]. cbn [List.concat].
      destruct (phase1_in _ _ _ _ _ _ E H) as [K1 K2]. destruct IHHg as [M1 M2]. split.
      - apply alts_app; [auto|]. rewrite <- K2. auto.
      - rewrite app_length, flip_add, <- K2. auto. }
    destruct K as [K1 K2]. split.
    + apply alts_app; [auto|]. rewrite <- K2. auto.
    + rewrite app_length, flip_add, <- K2. auto.
Qed.

Lemma alts_pairs : forall t1 t2 k l, List.length l <= k -> alts t1 t2 true l -> Nat.even (List.length l) = true -> pairs_a l t1 t2 = true.
Proof.
  induction k as [|k IH]; intros l Hk H1 H2.
  - destruct l; [reflexivity|cbn in Hk; lia].
  - destruct l as [|x [|y l]]; [reflexivity|discriminate H2|]. cbn in *. destruct H1 as [-> [-> H1]]. cbn. apply IH; auto; lia.
Qed.
Lemma alts_alternate : forall l t1 t2 kids b, alts t1 t2 b l -> (forall n, In n l -> In n kids) ->
  alternate l kids (if b then t1 else t2) (if b then t2 else t1) = true.
Proof.
  induction l as [|n l IH]; intros t1 t2 kids b H Hi; cbn; [reflexivity|]. destruct H as [-> H].
  assert (contains kids n = true) as ->.
  { unfold contains. apply existsb_exists. exists n. split; [apply Hi; left; auto|apply Nat.eqb_refl]. }
  specialize (IH t1 t2 kids (negb b) H). destruct b; cbn in *; apply IH; intros; apply Hi; right; auto.
Qed.

(** ** Concretisation *)
Definition empty_blk : block := mkblk false 0 0 (mkpos 0 0 0) (mkpos 0 0 0) [] [].

(** block [b], relative to what it was, [b0] *)
Definition blk_ok (b0 : block) (k : ablk) (b : block) : Prop :=
  exists ks sq, b_kids b = b_kids b0 ++ ks /\ b_seq b = b_seq b0 ++ sq /\
    List.length sq + k_sur k <= List.length ks /\ (k_empty k = true -> ks = []) /\
    seq_in (k_seq k) sq /\ incl sq (b_kids b).

Definition loc_ok (p : option block) (bs : list block) (n : node) (l : aloc) : Prop :=
  match l with
  | In_ d => exists b, nth_error (rev bs) d = Some b /\ In n (b_kids b)
  | InPrev => exists b, p = Some b /\ In n (b_kids b)
  | Nowhere => True
  end.
Definition val_ok (p : option block) (bs : list block) (v : aval) (o : option node) : Prop :=
  match o with
  | None => v_null v = true
  | Some n => tin (nty n) (v_ty v) = true /\ loc_ok p bs n (v_loc v)
  end.
Definition slot_ok p bs (s : option aval) (c : option (option node)) : Prop :=
  match s with None => True | Some v => exists o, c = Some o /\ val_ok p bs v o end.
Definition frames_ok p bs := Forall2 (Forall2 (slot_ok p bs)).

(** what a rule finds when it is entered *)
Record base := mkbase {
  B_frames : list (list (option (option node)));
  B_blk : block; B_rest : list block; B_prev : option block;
  B_ops : list oper; B_ret : option node; B_res : option node; B_lost : list node }.
Definition cleanb (q : option block) : Prop := match q with None => True | Some b => b_kids b = [] end.

Definition prev_ok (B : base) (p : aprev) (q : option block) : Prop :=
  match p with
  | ANone => q = None
  | AQuiet => q = None \/ q = B_prev B
  | AClean => cleanb q
  | ASome k => exists b, q = Some b /\ blk_ok empty_blk k b
  end.
Definition ops_ok (o : aops) (q : option block) (bs : list block) (X : list oper) : Prop :=
  match o with
  | OLen k => List.length X = k
  | OTop k => exists b b' r, bs = b :: b' :: r /\ List.length X + 1 = List.length (b_seq b) + k
  | OPrev => exists b, q = Some b /\ List.length X + 1 = List.length (b_seq b)
  end.
Definition ret_ok (was : option node) q bs (r : aret) (now : option node) : Prop :=
  match r with RKeep => now = was | RVal v => val_ok q bs v now | RAny => True end.

Definition head_eq (b b0 : block) : Prop :=
  b_top b = b_top b0 /\ b_bstart b = b_bstart b0 /\ b_rstart b = b_rstart b0.

Section Sound.
Variable e : xenv.
Variable strict : bool.
Hypothesis ps_ok : forall p, p <= e_pos e -> exists ps, x_position e p = XOk ps /\ offset ps = p + offset (e_off e).

Definition err_ok (r : perror) : Prop :=
  pe_ctx r <> None \/
  line_context (firstn (e_limit e) (e_inp e)) (offset (pe_pos r) - offset (e_off e)) 80 <> None.
Definition errs_ok (l : list perror) : Prop := strict = true -> Forall err_ok l.

Fixpoint blks_ok (b0 : block) (c : nat) (ks : list ablk) (bs : list block) : Prop :=
  match ks, bs with
  | [k], [b] => blk_ok b0 k b /\ head_eq b b0
  | k :: (_ :: _) as ks', b :: bs' =>
      blk_ok empty_blk k b /\ b_bstart b <= c /\ offset (b_rstart b) <= c + offset (e_off e) /\ blks_ok b0 c ks' bs'
  | _, _ => False
  end.

Definition st (B : base) (x : aenv) (c : nat) (a : astate) fs bs X : Prop :=
  (a_frames a = fs ++ B_frames B /\ frames_ok (a_prev a) bs (x_frames x) fs) /\
  (a_blocks a = bs ++ B_rest B /\ blks_ok (B_blk B) c (x_blocks x) bs) /\
  prev_ok B (x_prev x) (a_prev a) /\
  (a_ops a = X ++ B_ops B /\ ops_ok (x_ops x) (a_prev a) bs X) /\
  ret_ok (B_ret B) (a_prev a) bs (x_ret x) (a_ret a) /\
  ret_ok (B_res B) (a_prev a) bs (x_res x) (a_result a) /\
  errs_ok (a_errs a) /\ a_lost a = B_lost B.
Definition gam B x c a : Prop := exists fs bs X, st B x c a fs bs X.
Definition base_ok (B : base) : Prop := cleanb (B_prev B).

Definition fine {Y} (r : xres Y) (Q : Y -> Prop) : Prop :=
  match r with XOk y => Q y | XAssert => strict = false | _ => False end.

Lemma fine_bind : forall X Y (r : xres X) (f : X -> xres Y) P Q,
  fine r P -> (forall x, P x -> fine (f x) Q) -> fine (xbind r f) Q.
Proof. intros X Y [x| | |] f P Q H1 H2; cbn in *; auto. Qed.
Lemma fine_imp : forall Y (r : xres Y) (P Q : Y -> Prop), fine r P -> (forall y, P y -> Q y) -> fine r Q.
Proof. intros Y [y| | |] P Q H1 H2; cbn in *; auto. Qed.

(** *** Order *)
Lemma val_le_ok : forall p bs v w o, val_le v w = true -> val_ok p bs v o -> val_ok p bs w o.
Proof.
  intros p bs v w o H Hv. unfold val_le in H. apply andb_prop in H. destruct H as [H H3].
  apply andb_prop in H. destruct H as [H1 H2]. destruct o as [n|]; cbn in *.
  - destruct Hv as [Ht Hl]. split; [eapply tsub_in; eauto|]. apply orb_prop in H3. destruct H3 as [H3|H3].
    + apply orb_prop in H3. destruct H3 as [H3|H3].
      * destruct (v_loc v), (v_loc w); try discriminate H3; auto. apply Nat.eqb_eq in H3. subst. auto.
      * destruct (v_loc w); try discriminate H3. exact I.
    + pose proof (tsub_in _ _ _ H3 Ht) as K. rewrite tin_0 in K. discriminate.
  - rewrite Hv in H1. destruct (v_null w); auto.
Qed.
Lemma slot_le_ok : forall p bs v w o, slot_le v w = true -> slot_ok p bs v o -> slot_ok p bs w o.
Proof.
  intros p bs [v|] [w|] o H Hv; cbn in *; auto; try discriminate. destruct Hv as [x [-> Hx]]. exists x. split; auto.
  eapply val_le_ok; eauto.
Qed.
Lemma Forall2_le : forall X Y (f : X -> X -> bool) (R : X -> Y -> Prop), (forall a b y, f a b = true -> R a y -> R b y) ->
  forall l m ys, all2 f l m = true -> Forall2 R l ys -> Forall2 R m ys.
Proof.
  intros X Y f R H l m ys H1 H2. revert m H1. induction H2; intros [|b m] H1; try discriminate H1; constructor; cbn in H1;
    apply andb_prop in H1; destruct H1; eauto.
Qed.
Lemma frames_le_ok : forall p bs F G fs, all2 (all2 slot_le) F G = true -> frames_ok p bs F fs -> frames_ok p bs G fs.
Proof.
  intros p bs F G fs. apply Forall2_le. intros a b y. apply Forall2_le. intros. eapply slot_le_ok; eauto.
Qed.
Lemma blk_le_ok : forall b0 j k b, blk_le j k = true -> blk_ok b0 j b -> blk_ok b0 k b.
Proof.
  intros b0 j k b H [ks [sq [H1 [H2 [H3 [H4 [H5 H6]]]]]]]. unfold blk_le in H. apply andb_prop in H. destruct H as [H Hs].
  apply andb_prop in H. destruct H as [Ha Hb]. apply Nat.leb_le in Ha. exists ks, sq. repeat split; auto.
  - lia.
  - intros Hk. apply H4. rewrite Hk in Hb. destruct (k_empty j); auto.
  - eapply seq_le_in; eauto.
Qed.
Lemma blks_le_ok : forall b0 c j k bs, all2 blk_le j k = true -> blks_ok b0 c j bs -> blks_ok b0 c k bs.
Proof.
  induction j as [|x j IH]; intros [|y k] bs H Hb; try discriminate H; [exact Hb|]. cbn [all2] in H.
  apply andb_prop in H. destruct H as [H1 H2]. destruct j as [|x2 j], k as [|y2 k]; try discriminate H2.
  - destruct bs as [|b [|]]; cbn in *; try tauto. destruct Hb. split; [eapply blk_le_ok; eauto|auto].
  - destruct bs as [|b bs]; [destruct Hb|]. destruct Hb as [Ha [Hb [Hc Hd]]].
    split; [eapply blk_le_ok; eauto|]. split; [auto|]. split; [auto|]. apply (IH (y2 :: k)); auto.
Qed.
Lemma prev_le_ok : forall B p q b, base_ok B -> prev_le p q = true -> prev_ok B p b -> prev_ok B q b.
Proof.
  intros B p q b HB H Hp. unfold base_ok in HB. destruct p, q; try discriminate H; cbn in *; auto.
  - subst. exact I.
  - destruct Hp as [-> | ->]; [exact I|auto].
  - destruct Hp as [x [-> [ks [sq [H1 [H2 [H3 [H4 H5]]]]]]]]. cbn. rewrite H1, (H4 H). reflexivity.
  - destruct Hp as [x [-> Hx]]. exists x. split; [auto|]. eapply blk_le_ok; eauto.
Qed.
Lemma blks_len : forall b0 c ks bs, blks_ok b0 c ks bs -> List.length ks = List.length bs.
Proof.
  induction ks as [|k ks IH]; intros bs H; [destruct H|]. destruct ks as [|k2 ks].
  - destruct bs as [|b [|]]; cbn in *; try tauto.
  - destruct bs as [|b bs]; [destruct H|]. destruct H as [_ [_ [_ H]]]. cbn [List.length]. f_equal. apply IH in H. exact H.
Qed.
Lemma ops_le_ok : forall b0 c ks bs q o o' X, blks_ok b0 c ks bs -> ops_le ks o o' = true -> ops_ok o q bs X -> ops_ok o' q bs X.
Proof.
  intros b0 c ks bs q o o' X Hb H Ho. destruct o as [x|x|], o' as [y|y|]; try discriminate H; cbn in H.
  - apply Nat.eqb_eq in H. subst. auto.
  - destruct ks as [|k [|k2 ks]]; try discriminate H. destruct (exact_len (k_seq k)) as [n|] eqn:E; [|discriminate].
    apply Nat.eqb_eq in H. pose proof (blks_len _ _ _ _ Hb) as L. destruct bs as [|b [|b' r]]; try discriminate L.
    destruct Hb as [[ks1 [sq [H1 [H2 [H3 [H4 [H5 H6]]]]]]] _]. cbn in H2. exists b, b', r. split; [auto|].
    rewrite (exact_len_in _ _ _ E H5 : _ = n) in *. cbn in Ho. rewrite H2, (exact_len_in _ _ _ E H5). lia.
  - apply Nat.eqb_eq in H. subst. auto.
  - exact Ho.
Qed.
Lemma ret_le_ok : forall w q bs r s o, ret_le r s = true -> ret_ok w q bs r o -> ret_ok w q bs s o.
Proof.
  intros w q bs [|v|] [|u|] o H Ho; try discriminate H; cbn in *; auto. eapply val_le_ok; eauto.
Qed.
Lemma env_le_ok : forall B x y c a, base_ok B -> env_le x y = true -> gam B x c a -> gam B y c a.
Proof.
  intros B x y c a HB H [fs [bs [X [[F1 F2] [[K1 K2] [P [[O1 O2] [R1 [R2 [E L]]]]]]]]]]. unfold env_le in H.
  repeat (apply andb_prop in H; destruct H as [H ?]). exists fs, bs, X. unfold st. repeat split; auto.
  - eapply frames_le_ok; eauto.
  - eapply blks_le_ok; eauto.
  - eapply prev_le_ok; eauto.
  - eapply ops_le_ok; eauto.
  - eapply ret_le_ok; eauto.
  - eapply ret_le_ok; eauto.
Qed.

Lemma blks_later : forall b0 c d ks bs, c <= d -> blks_ok b0 c ks bs -> blks_ok b0 d ks bs.
Proof.
  induction ks as [|k ks IH]; intros bs H Hb; [destruct Hb|]. destruct ks as [|k2 ks]; [exact Hb|].
  destruct bs as [|b bs]; [destruct Hb|]. destruct Hb as [Ha [Hb [Hc Hd]]].
  split; [auto|]. split; [lia|]. split; [lia|]. apply IH; auto.
Qed.
Lemma gam_later : forall B x c d a, c <= d -> gam B x c a -> gam B x d a.
Proof.
  intros B x c d a H [fs [bs [X [F [[K1 K2] R]]]]]. exists fs, bs, X. split; [auto|]. split; [|auto].
  split; [auto|]. eapply blks_later; eauto.
Qed.

(** *** Locations *)
Section Remap.
Variables (p p' : option block) (bs bs' : list block) (f : aloc -> aloc).
Hypothesis Hf : forall n l, loc_ok p bs n l -> loc_ok p' bs' n (f l).
Lemma remap_val : forall v o, val_ok p bs v o -> val_ok p' bs' (map_loc f v) o.
Proof. intros v [n|] H; cbn in *; [|auto]. destruct H. auto. Qed.
Lemma remap_frames : forall F fs, frames_ok p bs F fs -> frames_ok p' bs' (map (map (option_map (map_loc f))) F) fs.
Proof.
  intros F fs H. induction H; constructor; auto. clear -H Hf. induction H; constructor; auto.
  destruct x as [v|]; cbn in *; [|exact I]. destruct H as [o [-> H]]. exists o. split; [auto|]. apply remap_val. auto.
Qed.
Lemma remap_ret : forall w r o, ret_ok w p bs r o -> ret_ok w p' bs' (map_ret f r) o.
Proof. intros w [|v|] o H; cbn in *; auto. apply remap_val. auto. Qed.
End Remap.

Lemma clean_ok : forall B p q, base_ok B -> clean p = true -> prev_ok B p q -> cleanb q.
Proof. intros B p q HB H Hp. apply (prev_le_ok B p AClean q HB H Hp). Qed.

Lemma nth_rev_cons : forall (b : block) bs d q, nth_error (rev bs) d = Some q -> nth_error (rev (b :: bs)) d = Some q.
Proof.
  intros b bs d q H. cbn. rewrite nth_error_app1; [auto|]. apply nth_error_Some. congruence.
Qed.
Lemma nth_rev_top : forall (b : block) bs, nth_error (rev (b :: bs)) (List.length bs) = Some b.
Proof. intros. cbn. rewrite nth_error_app2; rewrite rev_length; [|lia]. rewrite Nat.sub_diag. reflexivity. Qed.
Lemma nth_rev_split : forall (b : block) bs d q, nth_error (rev (b :: bs)) d = Some q ->
  (d = List.length bs /\ q = b) \/ (d <> List.length bs /\ nth_error (rev bs) d = Some q).
Proof.
  intros b bs d q H. destruct (Nat.eq_dec d (List.length bs)) as [-> |Hd].
  - rewrite nth_rev_top in H. left. split; congruence.
  - right. split; [auto|]. cbn in H. destruct (Nat.lt_ge_cases d (List.length bs)).
    + rewrite nth_error_app1 in H by (rewrite rev_length; auto). auto.
    + assert (nth_error (rev bs ++ [b]) d = None) as K; [|congruence].
      apply nth_error_None. rewrite app_length, rev_length. cbn. lia.
Qed.

(** the top block is replaced by one with the same children and more *)
Lemma loc_grow : forall p b b' bs n l, (forall m, In m (b_kids b) -> In m (b_kids b')) ->
  loc_ok p (b :: bs) n l -> loc_ok p (b' :: bs) n l.
Proof.
  intros p b b' bs n [d| |] H Hl; [|exact Hl|exact I]. destruct Hl as [q [H1 H2]].
  destruct (nth_rev_split _ _ _ _ H1) as [[-> ->]|[Hd Hq]].
  - exists b'. split; [apply nth_rev_top|auto].
  - exists q. split; [apply nth_rev_cons; auto|auto].
Qed.
Lemma loc_forget : forall p p' bs n l, loc_ok p bs n l -> loc_ok p' bs n (forget l).
Proof. intros p p' bs n [d| |] H; cbn in *; auto. Qed.
Lemma loc_push : forall p b bs n l, loc_ok p bs n l -> loc_ok p (b :: bs) n l.
Proof.
  intros p b bs n [d| |] H; auto. destruct H as [q [H1 H2]]. exists q. split; [apply nth_rev_cons; auto|auto].
Qed.
Lemma loc_move : forall p p' b bs bs' n to l,
  (In n (b_kids b) -> loc_ok p' bs' n to) ->
  (forall d, loc_ok p bs n (In_ d) -> loc_ok p' bs' n (In_ d)) ->
  loc_ok p (b :: bs) n l -> loc_ok p' bs' n (move (List.length bs) to l).
Proof.
  intros p p' b bs bs' n to [d| |] H1 H2 H; cbn; auto. destruct H as [q [Hq Hn]].
  destruct (nth_rev_split _ _ _ _ Hq) as [[-> ->]|[Hd Hq']].
  - rewrite Nat.eqb_refl. auto.
  - apply Nat.eqb_neq in Hd. rewrite Hd. apply H2. exists q. auto.
Qed.

Ltac st_split := unfold st; cbn -[blks_ok frames_ok prev_ok ops_ok ret_ok errs_ok];
  refine (conj (conj _ _) (conj (conj _ _) (conj _ (conj (conj _ _) (conj _ (conj _ (conj _ _)))))));
  auto; try reflexivity; try (eapply remap_frames; eauto; fail); try (eapply remap_ret; eauto; fail).

(** *** Blocks *)
Lemma blk_ok_fresh : forall b, blk_ok b fresh_blk b.
Proof.
  intros b. exists [], []. rewrite !app_nil_r. cbn. repeat split; auto. intros x [].
Qed.
Lemma blk_ok_new : forall p ps, blk_ok empty_blk fresh_blk (new_block p ps).
Proof.
  intros p ps. exists [], []. cbn. repeat split; auto. intros x [].
Qed.
Lemma blks_cons : forall b0 c k ks b bs, ks <> [] -> blk_ok empty_blk k b -> b_bstart b <= c ->
  offset (b_rstart b) <= c + offset (e_off e) -> blks_ok b0 c ks bs -> blks_ok b0 c (k :: ks) (b :: bs).
Proof. intros b0 c k [|k2 ks] b bs H; [congruence|]. cbn. auto. Qed.
Lemma blks_two : forall b0 c k k2 ks bs, blks_ok b0 c (k :: k2 :: ks) bs ->
  exists b b2 r, bs = b :: b2 :: r /\ blk_ok empty_blk k b /\ b_bstart b <= c /\ offset (b_rstart b) <= c + offset (e_off e) /\
    blks_ok b0 c (k2 :: ks) (b2 :: r).
Proof.
  intros b0 c k k2 ks bs H. pose proof (blks_len _ _ _ _ H) as L. destruct bs as [|b [|b2 r]]; try discriminate L.
  exists b, b2, r. destruct H as [H1 [H2 [H3 H4]]]. auto.
Qed.
(** the innermost block, whichever it is *)
Lemma blks_top : forall b0 c k ks bs, blks_ok b0 c (k :: ks) bs ->
  exists b r b1, bs = b :: r /\ blk_ok b1 k b /\
    (forall k' b', blk_ok b1 k' b' -> head_eq b' b -> blks_ok b0 c (k' :: ks) (b' :: r)).
Proof.
  intros b0 c k ks bs H. destruct ks as [|k2 ks].
  - destruct bs as [|b [|]]; cbn in H; try tauto. destruct H as [H1 [T1 [T2 T3]]]. exists b, [], b0. split; [auto|]. split; [auto|].
    intros k' b' K1 [E1 [E2 E3]]. cbn. split; [auto|]. unfold head_eq. rewrite E1, E2, E3. auto.
  - destruct (blks_two _ _ _ _ _ _ H) as [b [b2 [r [-> [H1 [H2 [H3 H4]]]]]]]. exists b, (b2 :: r), empty_blk.
    split; [auto|]. split; [auto|]. intros k' b' K1 [_ [E2 E3]]. apply blks_cons; auto; try discriminate; congruence.
Qed.

Lemma top_len : forall b0 c x b bs, blks_ok b0 c (x_blocks x) (b :: bs) -> top_idx x = List.length bs.
Proof. intros b0 c x b bs H. apply blks_len in H. unfold top_idx. rewrite H. cbn. lia. Qed.

Lemma start_sound : forall B x c p a y, base_ok B -> gam B x c a -> c <= p -> p <= e_pos e -> a_start x = Some y ->
  fine (do_block_start e p a) (gam B y p).
Proof.
  intros B x c p a y HB [fs [bs [X [[F1 F2] [[K1 K2] [P [[O1 O2] [R1 [R2 [E L]]]]]]]]]] Hc Hp H.
  unfold a_start in H. destruct (x_ops x) as [k| |] eqn:EO; try discriminate H. destruct (clean (x_prev x)) eqn:EC; [|discriminate].
  injection H as <-. destruct (ps_ok p Hp) as [ps [Eps Hoff]]. unfold do_block_start. rewrite Eps. cbn [xbind fine].
  exists fs, (new_block p ps :: bs), X.
  pose proof (clean_ok _ _ _ HB EC P) as HC.
  set (a' := set_prev _ None).
  assert (Ea : a' = set_prev (set_blocks a (new_block p ps :: a_blocks a)) None).
  { unfold a', block_free. destruct (a_prev a) as [q|]; [|reflexivity]. cbn in HC. rewrite HC, app_nil_r. destruct a; reflexivity. }
  rewrite Ea. clear a' Ea. rewrite ?EO. cbn in O2 |- *.
  assert (HL : forall n l, loc_ok (a_prev a) bs n l -> loc_ok None (new_block p ps :: bs) n (forget l)).
  { intros n l Hl. apply loc_push. eapply loc_forget; eauto. }
  st_split.
  - rewrite K1. reflexivity.
  - apply blks_cons; cbn; try lia.
    + intros E0. rewrite E0 in K2. exact K2.
    + apply blk_ok_new.
    + eapply blks_later; eauto.
Qed.

Lemma close_sound : forall B x c p a k k2 ks o, base_ok B -> gam B x c a -> c <= p -> p <= e_pos e ->
  x_blocks x = k :: k2 :: ks -> close_ops (x_ops x) = Some o -> clean (x_prev x) = true ->
  exists b ps b2 r fs X, close_block e p a = XOk (b, ps, set_prev (set_blocks a ((b2 :: r) ++ B_rest B)) (Some b)) /\
    b_bstart b <= p /\ offset (b_rstart b) <= p + offset (e_off e) /\
    blk_ok empty_blk k b /\
    a_frames a = fs ++ B_frames B /\ frames_ok (a_prev a) (b :: b2 :: r) (x_frames x) fs /\
    blks_ok (B_blk B) p (k2 :: ks) (b2 :: r) /\ a_ops a = X ++ B_ops B /\ 
    ops_ok (x_ops x) (a_prev a) (b :: b2 :: r) X /\ ops_ok o (Some b) (b2 :: r) X /\
    ret_ok (B_ret B) (a_prev a) (b :: b2 :: r) (x_ret x) (a_ret a) /\
    ret_ok (B_res B) (a_prev a) (b :: b2 :: r) (x_res x) (a_result a) /\
    errs_ok (a_errs a) /\ a_lost a = B_lost B /\ top_idx x = List.length (b2 :: r).
Proof.
  intros B x c p a k k2 ks o HB [fs [bs [X [[F1 F2] [[K1 K2] [P [[O1 O2] [R1 [R2 [E L]]]]]]]]]] Hc Hp Hx Ho EC.
  destruct (ps_ok p Hp) as [ps [Eps Hoff]]. rewrite Hx in K2. pose proof (blks_two _ _ _ _ _ _ K2) as [b [b2 [r [-> [T1 [T2 [T3 T4]]]]]]].
  set (b' := mkblk (b_top b) (b_bstart b) p (b_rstart b) ps (b_seq b) (b_kids b)).
  assert (Hb' : forall n l, loc_ok (a_prev a) (b :: b2 :: r) n l -> loc_ok (a_prev a) (b' :: b2 :: r) n l).
  { intros n l. apply loc_grow. auto. }
  assert (Hid : forall l, map_loc (fun x => x) l = l) by (intros []; reflexivity).
  assert (Hid2 : forall l, map_ret (fun x => x) l = l) by (intros [|v|]; cbn; rewrite ?Hid; reflexivity).
  assert (Hid3 : forall l, map (map (option_map (map_loc (fun x => x)))) l = l).
  { intros l. erewrite map_ext; [apply map_id|]. intros y. erewrite map_ext; [apply map_id|]. intros [v|]; cbn; rewrite ?Hid; reflexivity. }
  exists b', ps, b2, r, fs, X.
  split; [|split; [|split; [|split; [|split; [|split; [|split; [|split; [|split; [|split; [|split; [|split; [|split; [|split]]]]]]]]]]]]]; auto.
  - unfold close_block. rewrite Eps. cbn [xbind]. rewrite K1. cbn [List.app].
    replace (b_bstart b <=? p) with true by (symmetry; apply Nat.leb_le; lia).
    replace (offset (b_rstart b) <=? offset ps) with true by (symmetry; apply Nat.leb_le; lia).
    replace (match a_prev a with None => true | Some q => negb (nonempty (b_kids q)) end) with true; [reflexivity|].
    pose proof (clean_ok _ _ _ HB EC P) as HC. destruct (a_prev a); [|auto]. cbn in HC. rewrite HC. reflexivity.
  - cbn. lia.
  - cbn. lia.
  - rewrite <- (Hid3 (x_frames x)). eapply remap_frames; eauto.
  - eapply blks_later; eauto.
  - destruct (x_ops x) as [| |]; cbn in Ho |- *; auto.
    + destruct O2 as [b1 [b1' [r1 [E1 E2]]]]. injection E1 as <- <- <-. exists b', b2, r. auto.
  - destruct (x_ops x) as [|[|]|]; try discriminate Ho; injection Ho as <-; cbn; auto.
    destruct O2 as [b1 [b1' [r1 [E1 E2]]]]. injection E1 as <- <- <-. exists b'. split; [auto|]. cbn. lia.
  - rewrite <- (Hid2 (x_ret x)). eapply remap_ret; eauto.
  - rewrite <- (Hid2 (x_res x)). eapply remap_ret; eauto.
  - eapply top_len. rewrite Hx. exact K2.
Qed.

Lemma end_sound : forall B x c p a y, base_ok B -> gam B x c a -> c <= p -> p <= e_pos e -> a_close [] x = Some y ->
  fine (do_block_end e p a) (gam B y p).
Proof.
  intros B x c p a y HB HG Hc Hp H. unfold a_close in H.
  destruct (x_blocks x) as [|k [|k2 ks]] eqn:EX; try discriminate H. destruct (close_ops (x_ops x)) as [o|] eqn:EO; [|discriminate].
  destruct (clean (x_prev x)) eqn:EC; [|discriminate]. injection H as <-.
  destruct (close_sound _ _ _ _ _ _ _ _ _ HB HG Hc Hp EX EO EC) as [b [ps [b2 [r [fs [X [Q0 [Q1 [Q2 [Q3 [Q4 [Q5 [Q6 [Q7 [Q8 [Q9 [Q10 [Q11 [Q12 [Q13 Q14]]]]]]]]]]]]]]]]]]]].
  unfold do_block_end. rewrite Q0. cbn [xbind fine snd]. exists fs, (b2 :: r), X.
  assert (HL : forall n l, loc_ok (a_prev a) (b :: b2 :: r) n l -> loc_ok (Some b) (b2 :: r) n (move (top_idx x) InPrev l)).
  { intros n l Hl. rewrite Q14. eapply loc_move; [| |exact Hl]; auto. intros Hn. exists b. auto. }
  st_split.
  - exists b. auto.
Qed.

Lemma replace_sound : forall B x c p a y, base_ok B -> gam B x c a -> c <= p -> p <= e_pos e -> a_close [fresh_blk] x = Some y ->
  fine (do_block_replace e p a) (gam B y p).
Proof.
  intros B x c p a y HB HG Hc Hp H. unfold a_close in H.
  destruct (x_blocks x) as [|k [|k2 ks]] eqn:EX; try discriminate H. destruct (close_ops (x_ops x)) as [o|] eqn:EO; [|discriminate].
  destruct (clean (x_prev x)) eqn:EC; [|discriminate]. injection H as <-.
  destruct (close_sound _ _ _ _ _ _ _ _ _ HB HG Hc Hp EX EO EC) as [b [ps [b2 [r [fs [X [Q0 [Q1 [Q2 [Q3 [Q4 [Q5 [Q6 [Q7 [Q8 [Q9 [Q10 [Q11 [Q12 [Q13 Q14]]]]]]]]]]]]]]]]]]]].
  unfold do_block_replace. rewrite Q0. cbn [xbind fine]. exists fs, (new_block p (b_rstart b) :: b2 :: r), X.
  assert (HL : forall n l, loc_ok (a_prev a) (b :: b2 :: r) n l ->
      loc_ok (Some b) (new_block p (b_rstart b) :: b2 :: r) n (move (top_idx x) InPrev l)).
  { intros n l Hl. rewrite Q14. eapply loc_move; [| |exact Hl].
    - intros Hn. exists b. auto.
    - intros d Hd. apply loc_push. exact Hd. }
  st_split.
  - apply blks_cons; [discriminate|apply blk_ok_new|cbn; lia|cbn; auto|auto].
  - exists b. auto.
  - destruct o as [|j|]; cbn in *; auto. destruct (x_ops x) as [|[|]|]; discriminate EO.
Qed.

Lemma merge_sound : forall B x c p a y, base_ok B -> gam B x c a -> c <= p -> p <= e_pos e -> a_merge x = Some y ->
  fine (do_block_merge e p a) (gam B y p).
Proof.
  intros B x c p a y HB HG Hc Hp H. unfold a_merge in H.
  destruct (x_blocks x) as [|k [|k2 ks]] eqn:EX; try discriminate H. destruct (x_ops x) as [n| |] eqn:EO; try discriminate H.
  destruct (k_seq k) as [|i s] eqn:ES; [|discriminate].
  destruct (clean (x_prev x)) eqn:EC; [|discriminate]. injection H as <-.
  assert (EO' : close_ops (x_ops x) = Some (OLen n)) by (rewrite EO; reflexivity).
  destruct (close_sound _ _ _ _ _ _ _ _ _ HB HG Hc Hp EX EO' EC) as [b [ps [b2 [r [fs [X [Q0 [Q1 [Q2 [Q3 [Q4 [Q5 [Q6 [Q7 [Q8 [Q9 [Q10 [Q11 [Q12 [Q13 Q14]]]]]]]]]]]]]]]]]]]].
  destruct Q3 as [kk [sq [T1 [T2 [T3 [T4 [T5 T6]]]]]]]. rewrite ES in T5. cbn in T5. subst sq. cbn in T1, T2, T3.
  destruct (blks_top _ _ _ _ _ Q6) as [b3 [r3 [b1 [E1 [M1 M2]]]]]. injection E1 as <- <-.
  set (q := mkblk (b_top b2) (b_bstart b2) (b_bend b2) (b_rstart b2) (b_rend b2) (b_seq b2) (b_kids b2 ++ b_kids b)).
  set (pb := mkblk (b_top b) (b_bstart b) (b_bend b) (b_rstart b) (b_rend b) (b_seq b) []).
  assert (Hq : blk_ok b1 (mkab (k_sur k2 + k_sur k) (k_empty k2 && k_empty k) (k_seq k2)) q).
  { destruct M1 as [ks' [sq' [W1 [W2 [W3 [W4 [W5 W6]]]]]]]. exists (ks' ++ b_kids b), sq'. cbn. rewrite W1, <- app_assoc. repeat split; auto.
    - rewrite app_length, T1. lia.
    - intros He. apply andb_prop in He. destruct He as [He1 He2]. rewrite (W4 He1), T1, (T4 He2). reflexivity.
    - intros z Hz. apply W6 in Hz. rewrite W1 in Hz. rewrite app_assoc. apply in_or_app. left. exact Hz. }
  assert (Hpb : blk_ok empty_blk fresh_blk pb).
  { exists [], []. cbn. rewrite T2. repeat split; auto. intros z []. }
  assert (Hbs : blks_ok (B_blk B) p (mkab (k_sur k2 + k_sur k) (k_empty k2 && k_empty k) (k_seq k2) :: ks) (q :: r)).
  { apply M2; [exact Hq|]. repeat split. }
  assert (Hr : do_block_merge e p a = XOk (match b_kids b with
        | [] => set_prev (set_blocks a ((b2 :: r) ++ B_rest B)) (Some b)
        | _ => set_prev (set_blocks a ((q :: r) ++ B_rest B)) (Some pb) end)).
  { unfold do_block_merge. rewrite Q0. cbn [xbind]. unfold q. destruct (b_kids b); [reflexivity|].
    destruct a; reflexivity. }
  rewrite Hr. cbn [fine].
  assert (HL : forall pv b2', (forall m, In m (b_kids b2) -> In m (b_kids b2')) -> (forall m, In m (b_kids b) -> In m (b_kids b2')) ->
     forall m l, loc_ok (a_prev a) (b :: b2 :: r) m l ->
      loc_ok pv (b2' :: r) m (move (top_idx x) (In_ (top_idx x - 1)) l)).
  { intros pv b2' H1 H2 m l Hl. rewrite Q14. eapply loc_move; [| |exact Hl].
    - intros Hn. exists b2'. split; [|auto]. replace (List.length (b2 :: r) - 1) with (List.length r) by (cbn; lia). apply nth_rev_top.
    - intros d Hd. cbn [loc_ok]. apply (loc_grow (a_prev a) b2 b2' r m (In_ d)); auto. }
  destruct (b_kids b) as [|k0 kr] eqn:Ek.
  - assert (Eq : blk_ok b1 (mkab (k_sur k2 + k_sur k) (k_empty k2 && k_empty k) (k_seq k2)) b2).
    { destruct M1 as [ks' [sq' [W1 [W2 [W3 [W4 [W5 W6]]]]]]]. exists ks', sq'. cbn. repeat split; auto.
      - assert (kk = []) as -> by congruence. cbn in T3. lia.
      - intros He. apply andb_prop in He. destruct He as [He1 He2]. auto. }
    exists fs, (b2 :: r), X.
    assert (HL' := HL (Some b) b2 (fun m Hm => Hm) (fun m (Hm : In m []) => match Hm with end)).
    st_split.
    + apply M2; [exact Eq|repeat split].
    + exists b. split; [auto|]. exists [], []. cbn. rewrite T2, Ek. repeat split; auto; intros z [].
  - exists fs, (q :: r), X.
    assert (HL' : forall m l, loc_ok (a_prev a) (b :: b2 :: r) m l ->
      loc_ok (Some pb) (q :: r) m (move (top_idx x) (In_ (top_idx x - 1)) l)).
    { apply HL; intros m Hm; cbn; apply in_or_app; [left|right]; auto. }
    st_split.
    + exists pb. split; auto.
Qed.

(** *** Values *)
Lemma arg_sound : forall B x c a fs bs X v r, st B x c a fs bs X -> a_arg r x = Some v ->
  exists o, eval_arg r a = XOk o /\ val_ok (a_prev a) bs v o.
Proof.
  intros B x c a fs bs X v r [[F1 F2] _] H. destruct r as [k|]; cbn in *.
  - destruct (x_frames x) as [|f fx] eqn:Ef; [discriminate|]. inversion F2 as [|? g ? gs G1 G2]; subst.
    unfold get_slot. rewrite F1. cbn [List.app]. destruct (nth_error f k) as [[w|]|] eqn:En; try discriminate. injection H as ->.
    clear -En G1. revert k En. induction G1; intros [|k] En; try discriminate En; cbn in *.
    + injection En as ->. destruct H as [o [-> Ho]]. eauto.
    + exact (IHG1 k En).
  - injection H as <-. exists None. split; reflexivity.
Qed.
Lemma args_sound : forall B x c a fs bs X l vs, st B x c a fs bs X -> a_args l x = Some vs ->
  exists os, eval_args l a = XOk os /\ Forall2 (val_ok (a_prev a) bs) vs os.
Proof.
  induction l as [|r l IH]; intros vs HS H; cbn in H.
  - injection H as <-. exists []. auto.
  - destruct (a_arg r x) as [v|] eqn:E1; [|discriminate]. destruct (a_args l x) as [ws|] eqn:E2; [|discriminate]. injection H as <-.
    destruct (arg_sound _ _ _ _ _ _ _ _ _ HS E1) as [o [Eo Ho]]. destruct (IH ws HS eq_refl) as [os [Eos Hos]].
    exists (o :: os). cbn [eval_args]. rewrite Eo. cbn [xbind]. rewrite Eos. cbn [xbind]. auto.
Qed.

Lemma upd_ok : forall (R : option aval -> option (option node) -> Prop) f g k v w f', Forall2 R f g -> R v w -> upd f k v = Some f' ->
  exists g', upd g k w = Some g' /\ Forall2 R f' g'.
Proof.
  intros R f g k v w f' H HR. revert k f'. induction H; intros [|k] f' E; try discriminate E; cbn in *.
  - injection E as <-. eauto.
  - destruct (upd l k v) as [l1|] eqn:E1; [|discriminate]. injection E as <-. destruct (IHForall2 _ _ E1) as [g' [-> Hg]]. eauto.
Qed.
Lemma put_sound : forall B x c a fs bs X y k v o, st B x c a fs bs X -> a_put k v x = Some y -> val_ok (a_prev a) bs v o ->
  fine (put_slot k o a) (gam B y c).
Proof.
  intros B x c a fs bs X y k v o [[F1 F2] R] H Hv. unfold a_put in H. destruct (x_frames x) as [|f fx] eqn:Ef; [discriminate|].
  destruct (upd f k (Some v)) as [f'|] eqn:Eu; [|discriminate]. injection H as <-. inversion F2 as [|? g ? gs G1 G2]; subst.
  assert (Hs : slot_ok (a_prev a) bs (Some v) (Some o)) by (exists o; auto).
  destruct (upd_ok _ _ _ _ _ _ _ G1 Hs Eu) as [g' [Eg Hg]].
  unfold put_slot. rewrite F1. cbn [List.app]. rewrite Eg. cbn [fine]. exists (g' :: gs), bs, X.
  split; [|exact R]. split; [reflexivity|]. cbn. constructor; auto.
Qed.

(** *** Constructors *)
Definition par_ok (b : block) (p : apar) (q : aparam) : Prop :=
  match p, q with
  | APN v, PN None => v_null v = true
  | APN v, PN (Some n) => tin (nty n) (v_ty v) = true /\ (v_loc v = InPrev -> In n (b_kids b))
  | APL full s, PL l =>
      seq_in s l /\ incl l (b_kids b) /\ List.length l <= List.length (b_kids b) /\ (full = true -> l = b_seq b)
  | APB x, PB y => x = y
  | APD x, PD y => x = y
  | APO, PO (Some _) => True
  | APC, POs l => 1 <= List.length l /\ S (List.length l) = List.length (b_seq b)
  | APS, PS _ => True
  | _, _ => False
  end.
Lemma par_kind : forall b p q, par_ok b p q -> kind_of q = akind p.
Proof. intros b [] [] H; cbn in *; tauto || reflexivity. Qed.
Lemma pars_kind : forall b ps qs, Forall2 (par_ok b) ps qs -> map kind_of qs = map akind ps.
Proof. intros b ps qs H. induction H; cbn; [auto|]. rewrite (par_kind _ _ _ H), IHForall2. reflexivity. Qed.

(** the block that is built from, and the operators available *)
Definition pops_ok (T : nat -> nat -> Prop) (b : block) (base : list oper) (o : aops) (ops : list oper) : Prop :=
  exists X, ops = X ++ base /\
  match o with
  | OLen k => List.length X = k
  | OPrev => List.length X + 1 = List.length (b_seq b)
  | OTop k => T k (List.length X)
  end.

Lemma firstn_incl : forall X n (l : list X), incl (firstn n l) l.
Proof. intros X n l x Hx. rewrite <- (firstn_skipn n l). apply in_or_app. auto. Qed.

Lemma many_types : forall l t, (forall n, In n l -> tin (nty n) t = true) -> seq_in [Many [t]] l.
Proof.
  intros l t H. exists (map (fun n => [n]) l), []. split; [|split; [|reflexivity]].
  - rewrite app_nil_r. clear H. induction l; cbn; congruence.
  - apply Forall_forall. intros g Hg. apply in_map_iff in Hg. destruct Hg as [n [<- Hn]]. constructor; [auto|constructor].
Qed.

Lemma par_sound : forall T inp b k args os sb p o ops0 ops r o', blk_ok empty_blk k b ->
  Forall2 (fun v q => par_ok b (APN v) (PN q)) args os -> pops_ok T b ops0 o ops ->
  a_par k args o p = Some (r, o') ->
  exists q ops', eval_bparam inp b os sb ops p = Some (q, ops') /\ par_ok b r q /\ pops_ok T b ops0 o' ops'.
Proof.
  intros T inp b k args os sb p o ops0 ops r o' [ks [sq [H1 [H2 [H3 [H4 [H5 H6]]]]]]] Ha Ho H.
  cbn in H1, H2. subst ks sq.
  assert (HP : forall s l, seq_in s l -> incl l (b_seq b) -> List.length l <= List.length (b_seq b) -> par_ok b (APL false s) (PL l)).
  { intros s l S1 S2 S3. cbn. repeat split; auto; [intros z Hz; auto|lia|discriminate]. }
  destruct p as [i| |x|d| |v t|v t| | | | | | | ]; cbn [a_par eval_bparam] in *.
  - destruct (nth_error args i) as [v|] eqn:E; [|discriminate]. injection H as <- <-.
    assert (exists q, nth_error os i = Some q /\ par_ok b (APN v) (PN q)) as [q [-> Hq]].
    { clear -Ha E. revert i E. induction Ha; intros [|i] E; try discriminate E; cbn in *; eauto. injection E as <-. eauto. }
    exists (PN q), ops. auto.
  - injection H as <- <-. exists (PN None), ops. cbn. auto.
  - injection H as <- <-. exists (PB x), ops. cbn. auto.
  - injection H as <- <-. exists (PD d), ops. cbn. auto.
  - injection H as <- <-. exists (PL (b_seq b)), ops. split; [auto|]. split; [|auto]. cbn. repeat split; auto. lia.
  - destruct (seq_split v t (k_seq k)) as [a1 b1] eqn:E. destruct (all_are (negb v) (seq_types b1) t) eqn:E2; [|discriminate].
    injection H as <- <-. destruct (seq_cut _ _ _ _ _ _ E E2 H5) as [l1 [l2 [El [S1 [S2 [T1 T2]]]]]].
    exists (PL l1), ops. rewrite T1. split; [auto|]. split; [|auto]. apply HP; auto.
    + rewrite El. intros z Hz. apply in_or_app. auto.
    + rewrite El, app_length. lia.
  - destruct (seq_split v t (k_seq k)) as [a1 b1] eqn:E. destruct (all_are (negb v) (seq_types b1) t) eqn:E2; [|discriminate].
    injection H as <- <-. destruct (seq_cut _ _ _ _ _ _ E E2 H5) as [l1 [l2 [El [S1 [S2 [T1 T2]]]]]].
    exists (PL l2), ops. rewrite T2. split; [auto|]. split; [|auto]. apply HP; auto.
    + rewrite El. intros z Hz. apply in_or_app. auto.
    + rewrite El, app_length. lia.
  - injection H as <- <-. eexists _, ops. split; [reflexivity|]. split; [|auto]. apply HP.
    + apply many_types. intros n Hn. apply firstn_incl in Hn. eapply seq_types_in; eauto.
    + apply firstn_incl.
    + rewrite firstn_length. lia.
  - destruct (seq_even (k_seq k)) as [[]|] eqn:E; try discriminate. injection H as <- <-. rewrite (seq_even_in _ _ _ E H5).
    exists (PL (b_seq b)), ops. split; [auto|]. split; [|auto]. cbn. repeat split; auto. lia.
  - destruct o as [[|n]| |]; try discriminate H. injection H as <- <-. destruct Ho as [[|y X] [-> L]]; [discriminate L|].
    exists (PO (Some y)), (X ++ ops0). cbn. split; [auto|]. split; [auto|]. exists X. split; [auto|]. cbn in L. lia.
  - destruct o as [| |]; try discriminate H. destruct (2 <=? min_len (k_seq k)) eqn:E; [|discriminate]. injection H as <- <-.
    apply Nat.leb_le in E. pose proof (min_len_in _ _ H5) as M. destruct Ho as [X [-> L]].
    replace (1 <? List.length (b_seq b)) with true by (symmetry; apply Nat.ltb_lt; lia).
    replace (List.length (b_seq b) - 1 <=? List.length (X ++ ops0)) with true by (symmetry; apply Nat.leb_le; rewrite app_length; lia).
    cbn [andb]. eexists _, _. split; [reflexivity|]. split.
    + cbn. rewrite rev_length, firstn_length, app_length. lia.
    + exists []. split; [|reflexivity]. cbn [List.app]. replace (List.length (b_seq b) - 1) with (List.length X) by lia.
      rewrite skipn_app, skipn_all, Nat.sub_diag. reflexivity.
  - injection H as <- <-. eexists _, ops. split; [reflexivity|]. cbn. auto.
  - injection H as <- <-. eexists _, ops. split; [reflexivity|]. cbn. auto.
  - injection H as <- <-. eexists _, ops. split; [reflexivity|]. cbn. auto.
Qed.
Lemma pars_sound : forall T inp b k args os sb ops0, blk_ok empty_blk k b ->
  Forall2 (fun v q => par_ok b (APN v) (PN q)) args os -> forall l o ops rs o', pops_ok T b ops0 o ops ->
  a_pars k args o l = Some (rs, o') ->
  exists qs ops', eval_bparams inp b os sb ops l = Some (qs, ops') /\ Forall2 (par_ok b) rs qs /\ pops_ok T b ops0 o' ops'.
Proof.
  intros T inp b k args os sb ops0 Hb Ha. induction l as [|p l IH]; intros o ops rs o' Ho H; cbn [a_pars eval_bparams] in *.
  - injection H as <- <-. exists [], ops. auto.
  - destruct (a_par k args o p) as [[r o1]|] eqn:E1; [|discriminate].
    destruct (a_pars k args o1 l) as [[rs1 o2]|] eqn:E2; [|discriminate]. injection H as <- <-.
    destruct (par_sound T inp _ _ _ _ sb _ _ _ _ _ _ Hb Ha Ho E1) as [q [ops1 [-> [Hq Ho1]]]].
    destruct (IH _ _ _ _ Ho1 E2) as [qs [ops2 [-> [Hqs Ho2]]]]. exists (q :: qs), ops2. auto.
Qed.

Lemma nth_Forall2 : forall X Y (R : X -> Y -> Prop) l m, Forall2 R l m -> forall k x, nth_error l k = Some x ->
  exists y, nth_error m k = Some y /\ R x y.
Proof.
  intros X Y R l m H. induction H; intros [|k] z E; try discriminate E; cbn in *; eauto. injection E as <-. eauto.
Qed.

Lemma all_a_in : forall s l t, seq_in s l -> tsub (seq_types s) (below t) = true -> all_a l t = true.
Proof.
  intros s l t Hl H. apply forallb_forall. intros n Hn. eapply sub_below; eauto. eapply seq_types_in; eauto.
Qed.
Lemma child_in : forall b v n, child_val v = true -> par_ok b (APN v) (PN (Some n)) -> contains (b_kids b) n = true.
Proof.
  intros b v n H [H1 H2]. unfold child_val in H. apply orb_prop in H. destruct H as [H|H].
  - assert (In n (b_kids b)) as Hn. { apply H2. destruct (v_loc v); try discriminate H. reflexivity. }
    unfold contains. apply existsb_exists. exists n. split; [auto|apply Nat.eqb_refl].
  - pose proof (tsub_in _ _ _ H H1) as K. rewrite tin_0 in K. discriminate.
Qed.

Lemma check_sound : forall b ps qs r, Forall2 (par_ok b) ps qs -> a_check ps r = true -> check qs (b_kids b) r = true.
Proof.
  intros b ps qs r HF H. destruct r as [k t|k t|k t|k t|k t|k t|k|k|k|f k|k|k t1 t2|k t1 t2|k t1 t2|k|k t1 t2|f k];
    cbn [a_check check] in *;
    try (destruct (nth_error ps k) as [[v|full s|x|d| | |]|] eqn:E; try discriminate H;
         destruct (nth_Forall2 _ _ _ _ _ HF _ _ E) as [q [-> Hq]]; destruct q as [o|l|y|d'|o|l|s']; try (exact (False_ind _ Hq));
         try (destruct o as [n|]));
    unfold is_val in *;
    repeat match goal with H : (_ && _) = true |- _ => apply andb_prop in H; destruct H end;
    try (match goal with H : negb (v_null _) = true, K : par_ok _ (APN _) (PN None) |- _ => cbn in K; rewrite K in H; discriminate H end);
    try reflexivity.
  - rewrite (sub_below _ _ _ H1 (proj1 Hq)), (child_in _ _ _ H0 Hq). reflexivity.
  - rewrite (sub_below _ _ _ H (proj1 Hq)), (child_in _ _ _ H0 Hq). reflexivity.
  - destruct Hq as [Q1 [Q2 [Q3 Q4]]]. rewrite (all_a_in _ _ _ Q1 H). cbn. apply Nat.leb_le. auto.
  - destruct Hq as [Q1 [Q2 [Q3 Q4]]]. pose proof (all_a_in _ _ _ Q1 H) as Hall.
    replace (all_a (firstn (Nat.div2 (List.length l)) l) t) with true.
    + cbn. apply Nat.leb_le. pose proof (Nat.div2_decr (List.length l) (List.length l)). lia.
    + symmetry. unfold all_a in *. rewrite forallb_forall in *. intros z Hz. apply Hall. eapply firstn_incl; eauto.
  - eapply sub_below; [eauto|exact (proj1 Hq)].
  - destruct Hq as [Q1 _]. eapply all_a_in; eauto.
  - eapply child_in; eauto.
  - eapply child_in; eauto.
  - destruct Hq as [Q1 _]. apply Nat.ltb_lt in H. pose proof (min_len_in _ _ Q1) as M. destruct l; cbn in *; [lia|auto].
  - destruct (nth_error ps f) as [[v|full s|x|d| | |]|] eqn:E; try discriminate H.
    destruct (nth_error ps k) as [[v|full s|x'|d| | |]|] eqn:E'; try (destruct x; discriminate H).
    destruct (nth_Forall2 _ _ _ _ _ HF _ _ E) as [q [-> Hq]]. destruct (nth_Forall2 _ _ _ _ _ HF _ _ E') as [q' [-> Hq']].
    destruct q as [[n|]|l|y|d'|o|l|s']; try (exact (False_ind _ Hq)). destruct q' as [[n|]|l|y'|d'|o|l|s']; try (exact (False_ind _ Hq')).
    cbn in Hq. subst y. destruct x; [reflexivity|]. destruct Hq' as [Q1 _]. apply Nat.ltb_lt in H.
    pose proof (min_len_in _ _ Q1) as M. destruct l; cbn in *; [lia|auto].
  - exact (False_ind _ Hq).
  - eapply sub_below2; [eauto|exact (proj1 Hq)].
  - eapply sub_below2; [eauto|exact (proj1 Hq)].
  - destruct Hq as [Q1 _]. destruct (phase t1 t2 true s) as [[]|] eqn:EP; try discriminate H.
    destruct (phase_in _ _ _ _ _ _ EP Q1) as [A1 A2]. eapply alts_pairs; [apply le_n|exact A1|].
    unfold flip in A2. destruct (Nat.even (List.length l)); [auto|discriminate A2].
  - destruct Hq as [Q1 _]. destruct (seq_even s) as [[]|] eqn:EP; try discriminate H.
    rewrite <- Nat.negb_even, (seq_even_in _ _ _ EP Q1). reflexivity.
  - destruct Hq as [Q1 [Q2 _]]. destruct (phase t1 t2 true s) as [b'|] eqn:EP; try discriminate H.
    destruct (phase_in _ _ _ _ _ _ EP Q1) as [A1 A2]. apply (alts_alternate l t1 t2 (b_kids b) true A1). auto.
  - destruct (nth_error ps f) as [[v|full s|x|d| | |]|] eqn:E; try discriminate H.
    destruct (nth_error ps k) as [[v|[] s|x'|d| | |]|] eqn:E'; try discriminate H.
    destruct (nth_Forall2 _ _ _ _ _ HF _ _ E) as [q [-> Hq]]. destruct (nth_Forall2 _ _ _ _ _ HF _ _ E') as [q' [-> Hq']].
    destruct q as [[n|]|l|y|d'|o|l|s']; try (exact (False_ind _ Hq)). destruct q' as [[n|]|l'|y'|d'|o|l'|s']; try (exact (False_ind _ Hq')).
    destruct Hq as [Q1 Q2]. destruct Hq' as [_ [_ [_ Q3]]]. rewrite (Q3 eq_refl), <- Q2. destruct l; [cbn in Q1; lia|]. apply Nat.eqb_refl.
Qed.

(** requirements that do not mention the children *)
Definition no_kids (r : req) : bool :=
  match r with
  | RqChild _ _ | RqChildOpt _ _ | RqChildAll _ _ | RqChildAllHalf _ _ | RqContains _ | RqContainsOpt _
  | RqAlternate _ _ _ => false
  | _ => true
  end.
Lemma no_kids_check : forall qs k1 k2 r, no_kids r = true -> check qs k1 r = check qs k2 r.
Proof. intros qs k1 k2 [] H; try discriminate H; reflexivity. Qed.
Lemma terminal_reqs : forall t, implb (terminal t) (forallb no_kids (ctor_reqs t)) = true.
Proof. apply for_all_types. vm_compute. reflexivity. Qed.

Lemma construct_ok : forall id t ps qs b rng ks, Forall2 (par_ok b) ps qs -> ctor_kinds t = Some ks ->
  kinds_eqb (map akind ps) ks = true -> forallb (a_check ps) (ctor_reqs t) = true ->
  construct id t qs (if terminal t then [] else b_kids b) rng
    = Some (Node id t rng (map to_field qs) (if terminal t then [] else b_kids b) 0).
Proof.
  intros id t ps qs b rng ks HF Hk H1 H2. unfold construct. rewrite Hk, (pars_kind _ _ _ HF), H1.
  replace (forallb (check qs (if terminal t then [] else b_kids b)) (ctor_reqs t)) with true; [reflexivity|].
  symmetry. rewrite forallb_forall in *. intros r Hr. pose proof (check_sound _ _ _ _ HF (H2 r Hr)) as K.
  destruct (terminal t) eqn:ET; [|exact K]. rewrite <- K. apply no_kids_check.
  pose proof (terminal_reqs t) as T. rewrite ET in T. cbn [implb] in T. rewrite forallb_forall in T. auto.
Qed.

(** *** Documentation *)
Lemma below_any_in : forall ts s n, tsub s (below_any ts) = true -> tin (nty n) s = true -> typed ts n.
Proof.
  intros ts s n H1 H2. pose proof (tsub_in _ _ _ H1 H2) as H. clear H1 H2 s. induction ts as [|t ts IH].
  - cbn [below_any fold_right] in H. rewrite tin_0 in H. discriminate.
  - change (below_any (t :: ts)) with (tunion (below t) (below_any ts)) in H. rewrite tunion_in in H. apply orb_prop in H.
    destruct H as [H|H].
    + rewrite below_in in H. exists t. split; [left; reflexivity|]. apply is_a_sound. exact H.
    + destruct (IH H) as [u [U1 U2]]. exists u. split; [right; exact U1|exact U2].
Qed.
Lemma in_child_of : forall ks (n : node), In n ks -> child_of ks n.
Proof. intros ks n H. exists n. auto. Qed.
Lemma own_in : forall b v n, child_val v = true -> par_ok b (APN v) (PN (Some n)) -> In n (b_kids b).
Proof.
  intros b v n H [H1 H2]. unfold child_val in H. apply orb_prop in H. destruct H as [H|H].
  - apply H2. destruct (v_loc v); try discriminate H. reflexivity.
  - pose proof (tsub_in _ _ _ H H1) as K. rewrite tin_0 in K. discriminate.
Qed.
Lemma alts_nth : forall t1 t2 l b i x, alts t1 t2 b l -> nth_error l i = Some x ->
  descends (nty x) (if flip b i then t1 else t2).
Proof.
  induction l as [|n l IH]; intros b i x H Hi; [destruct i; discriminate Hi|]. destruct H as [H0 H].
  destruct i as [|i]; cbn in Hi.
  - injection Hi as <-. apply is_a_sound. exact H0.
  - pose proof (IH _ _ _ H Hi) as K. replace (flip b (S i)) with (flip (negb b) i); [exact K|].
    unfold flip. rewrite Nat.even_succ, <- Nat.negb_even. destruct (Nat.even i), b; reflexivity.
Qed.
Lemma doc_sound : forall b d p q, a_doc d p = true -> par_ok b p q -> meets true (b_kids b) d q.
Proof.
  intros b d p q H Hp.
  destruct d as [ts|ts|ts| |t1 t2|t1 t2| | |]; destruct p as [v|full s|x|x| | |]; try discriminate H;
    destruct q as [o|l|y|y|o|l|y]; try (exact (False_ind _ Hp)); cbn [a_doc] in H; try exact I;
    repeat match goal with H : (_ && _) = true |- _ => apply andb_prop in H; destruct H end.
  - destruct o as [n|]; [|cbn in Hp; rewrite Hp in H; discriminate H]. exists n. split; [reflexivity|]. split.
    + eapply below_any_in; [eassumption|apply Hp].
    + apply in_child_of. eapply own_in; eauto.
  - intros n ->. split.
    + eapply below_any_in; [eassumption|apply Hp].
    + apply in_child_of. eapply own_in; eauto.
  - destruct Hp as [P1 [P2 _]]. intros n Hn. split.
    + eapply below_any_in; [eassumption|]. eapply seq_types_in; eauto.
    + intros _. apply in_child_of. apply P2. exact Hn.
  - destruct Hp as [P1 [P2 _]]. intros n Hn _. apply in_child_of. apply P2. exact Hn.
  - destruct (phase t1 t2 true s) as [b'|] eqn:EP; [|discriminate]. destruct Hp as [P1 [P2 _]].
    destruct (phase_in _ _ _ _ _ _ EP P1) as [A1 _]. intros i n Hn. split.
    + eexists. split; [left; reflexivity|]. pose proof (alts_nth _ _ _ _ _ _ A1 Hn) as K. unfold flip in K.
      destruct (Nat.even i); exact K.
    + intros _. apply in_child_of, P2. eapply nth_error_In; eauto.
  - destruct (seq_even s) as [[]|] eqn:EV; try discriminate H. destruct (phase t1 t2 true s) as [b'|] eqn:EP; [|discriminate].
    destruct Hp as [P1 [P2 _]]. destruct (phase_in _ _ _ _ _ _ EP P1) as [A1 _]. split.
    + rewrite <- Nat.negb_even, (seq_even_in _ _ _ EV P1). reflexivity.
    + intros i n Hn. split.
      * eexists. split; [left; reflexivity|]. pose proof (alts_nth _ _ _ _ _ _ A1 Hn) as K. unfold flip in K.
      destruct (Nat.even i); exact K.
      * apply in_child_of, P2. eapply nth_error_In; eauto.
  - destruct o; [discriminate|exact (False_ind _ Hp)].
  - destruct Hp as [P1 _]. intros ->. cbn in P1. lia.
Qed.
Lemma differs_in : forall t i, differs t i = true -> In (t, i) parser_differs.
Proof.
  intros t i H. unfold differs in H. apply existsb_exists in H. destruct H as [[u j] [H1 H2]]. cbn in H2.
  apply andb_prop in H2. destruct H2 as [H2 H3]. apply N.eqb_eq, tnum_inj in H2. apply Nat.eqb_eq in H3. subst. exact H1.
Qed.
Lemma docs_sound : forall b t ds ps qs, Forall2 (par_ok b) ps qs -> forall k, a_docs t k ds ps = true ->
  List.length qs = List.length ds /\
  forall i d q, nth_error ds i = Some d -> nth_error qs i = Some q -> ~ In (t, k + i) parser_differs -> meets true (b_kids b) d q.
Proof.
  intros b t ds ps qs H. revert ds. induction H as [|p q ps qs Hp HF IH]; intros ds k Hd; destruct ds as [|d ds]; try discriminate Hd.
  - split; [reflexivity|]. intros [|i] d q E; discriminate E.
  - cbn [a_docs] in Hd. apply andb_prop in Hd. destruct Hd as [H1 H2]. destruct (IH _ _ H2) as [L1 L2]. split; [cbn; congruence|].
    intros [|i] d' q' E1 E2 HN; cbn in E1, E2.
    + injection E1 as <-. injection E2 as <-. apply orb_prop in H1. destruct H1 as [H1|H1]; [eapply doc_sound; eauto|].
      apply differs_in in H1. rewrite Nat.add_0_r in HN. contradiction.
    + eapply L2; eauto. rewrite Nat.add_succ_comm. exact HN.
Qed.
Lemma terminal_docs : forall t, implb (terminal t)
  (match doc_params t with Some ds => forallb (fun d => match d with DFree => true | _ => false end) ds | None => false end) = true.
Proof. apply for_all_types. vm_compute. reflexivity. Qed.

Lemma documented_ok : forall id t ps qs b rng ks ds, Forall2 (par_ok b) ps qs -> ctor_kinds t = Some ks ->
  kinds_eqb (map akind ps) ks = true -> forallb (a_check ps) (ctor_reqs t) = true -> forallb own_par ps = true ->
  doc_params t = Some ds -> a_docs t 0 ds ps = true -> (terminal t = true -> b_kids b = []) ->
  as_documented (Node id t rng (map to_field qs) (if terminal t then [] else b_kids b) 0).
Proof.
  intros id t ps qs b rng ks ds HF Hk H1 H2 H3 H4 H5 H6.
  assert (EK : (if terminal t then [] else b_kids b) = b_kids b) by (destruct (terminal t); [rewrite H6|]; reflexivity).
  pose proof (construct_ok id _ _ _ _ rng _ HF Hk H1 H2) as C. rewrite EK in *. exists qs, ds. cbn [nid nty nkids nrng nflds].
  destruct (docs_sound _ _ _ _ _ HF _ H5) as [D1 D2].
  split; [exact C|]. split; [|split; [|split; [exact H6|split; [exact H4|split; [exact D1|]]]]].
  - intros y Hy. apply In_nth_error in Hy. destruct Hy as [i Hi]. rewrite forallb_forall in H3.
    assert (exists p, nth_error ps i = Some p /\ par_ok b p (PN (Some y))) as [p [Ep Hp]].
    { clear -HF Hi. revert i Hi. induction HF; intros [|i] Hi; try discriminate Hi; cbn in *; eauto. injection Hi as ->. eauto. }
    destruct p; cbn in Hp; try tauto. eapply own_in; [|exact Hp]. apply (H3 (APN v)). eapply nth_error_In; eauto.
  - intros l y Hl Hy. apply In_nth_error in Hl. destruct Hl as [i Hi].
    assert (exists p, nth_error ps i = Some p /\ par_ok b p (PL l)) as [p [Ep Hp]].
    { clear -HF Hi. revert i Hi. induction HF; intros [|i] Hi; try discriminate Hi; cbn in *; eauto. injection Hi as ->. eauto. }
    destruct p; cbn in Hp; try tauto. apply Hp. exact Hy.
  - intros i d p E1 E2 HN. eapply D2; eauto.
Qed.

Lemma build_sound : forall B x c a fs bs X ct args os v y, base_ok B -> st B x c a fs bs X ->
  a_build strict ct args x = Some (v, y) -> Forall2 (val_ok (a_prev a) bs) args os ->
  fine (do_build e ct os a) (fun r => exists bs' X', st B y c (snd r) fs bs' X' /\ val_ok (a_prev (snd r)) bs' v (Some (fst r)) /\
    as_documented (fst r)).
Proof.
  intros B x c a fs bs X ct args os v y HB [[F1 F2] [[K1 K2] [P [[O1 O2] [R1 [R2 [E L]]]]]]] H Ha.
  unfold a_build in H. destruct (x_prev x) as [| | |k] eqn:EP; try discriminate H. destruct (x_blocks x) as [|q qs] eqn:EX; [discriminate|].
  destruct (build_call ct) as [ty bps] eqn:EB. destruct (a_pars k args (x_ops x) bps) as [[ps o]|] eqn:EA; [|discriminate].
  destruct (ctor_kinds ty) as [kk|] eqn:EK; [|discriminate].
  match type of H with (if ?u then _ else _) = _ => destruct u eqn:EU end; [|discriminate].
  apply andb_prop in EU. destruct EU as [EU U6]. apply andb_prop in EU. destruct EU as [EU U5].
  apply andb_prop in EU. destruct EU as [EU U4]. apply andb_prop in EU. destruct EU as [EU U3].
  apply andb_prop in EU. destruct EU as [U1 U2]. injection H as <- <-.
  destruct (doc_params ty) as [ds|] eqn:ED; [|discriminate U6].
  destruct P as [b [Pb Hb]]. unfold do_build. rewrite Pb, EB.
  destruct (blks_top _ _ _ _ _ K2) as [b2 [r [b1 [-> [M1 M2]]]]].
  assert (Ha' : Forall2 (fun v q => par_ok b (APN v) (PN q)) args os).
  { clear -Ha Pb. induction Ha; constructor; auto. destruct y as [n|]; cbn in *; [|auto]. destruct H as [H1 H2]. split; [auto|].
    intros Hl. rewrite Hl in H2. destruct H2 as [b' [E1 E2]]. congruence. }
  set (T := fun k n => r <> [] /\ n + 1 = List.length (b_seq b2) + k).
  assert (Ho' : pops_ok T b (B_ops B) (x_ops x) (a_ops a)).
  { exists X. split; [auto|]. unfold T. destruct (x_ops x); cbn in *; auto; destruct O2 as [b' [E1 E2]]; [|congruence].
    destruct E2 as [r' [Er E2]]. injection Er as <- ->. split; [discriminate|auto]. }
  destruct (pars_sound T (e_inp e) b k args os (a_sb a) (B_ops B) Hb Ha' _ _ _ _ _ Ho' EA) as [qs' [ops' [-> [HF [X' [EX' HX']]]]]].
  destruct (terminal ty && nonempty (b_kids b)) eqn:ET.
  - cbn [fine]. destruct strict; [|reflexivity]. apply andb_prop in ET. destruct ET as [ET1 ET]. rewrite ET1 in U1. cbn in U1.
    destruct (k_empty k) eqn:EE; [|discriminate]. destruct Hb as [ks [sq [W1 [W2 [W3 [W4 [W5 W6]]]]]]].
    cbn in W1. rewrite W1, (W4 EE) in ET. discriminate.
  - rewrite (construct_ok _ _ _ _ _ _ _ HF EK U2 U3).
    rewrite K1. cbn [List.app fine].
    set (n := Node _ ty _ _ _ 0).
    assert (HD : as_documented n).
    { eapply documented_ok; eauto. intros Ht. rewrite Ht in ET. destruct (b_kids b); [reflexivity|discriminate ET]. }
    set (q' := mkblk (b_top b2) (b_bstart b2) (b_bend b2) (b_rstart b2) (b_rend b2) (b_seq b2) (b_kids b2 ++ [n])).
    exists (q' :: r), X'.
    assert (HL : forall m l, loc_ok (a_prev a) (b2 :: r) m l -> loc_ok None (q' :: r) m (forget l)).
    { intros m l Hl. eapply loc_forget. eapply loc_grow; [|exact Hl]. intros z Hz. cbn. apply in_or_app. auto. }
    split.
    + st_split.
      * apply M2; [|repeat split]. destruct M1 as [ks [sq [W1 [W2 [W3 [W4 [W5 W6]]]]]]]. exists (ks ++ [n]), sq. cbn.
        rewrite W1, <- app_assoc. repeat split; auto.
        -- rewrite app_length. cbn. lia.
        -- discriminate.
        -- intros z Hz. apply W6 in Hz. rewrite W1 in Hz. rewrite app_assoc. apply in_or_app. auto.
      * destruct o as [|j|]; cbn in *; auto; [|discriminate U4]. destruct HX' as [Hr HX]. destruct r as [|b3 r]; [congruence|].
        exists q', b3, r. auto.
    + split; [|exact HD]. split; [apply tone_in|]. cbn [v_loc]. rewrite <- EX in K2. rewrite (top_len _ _ _ _ _ K2).
      exists q'. split; [apply nth_rev_top|]. cbn. apply in_or_app. right. left. reflexivity.
Qed.

(** *** Statements *)
Lemma rhs_sound : forall B x c a fs bs X r v y, base_ok B -> st B x c a fs bs X -> a_rhs strict r x = Some (v, y) ->
  fine (eval_rhs e r a) (fun w => exists bs' X', st B y c (snd w) fs bs' X' /\ val_ok (a_prev (snd w)) bs' v (fst w)).
Proof.
  intros B x c a fs bs X r v y HB HS H. destruct r as [r|ct l]; cbn [a_rhs eval_rhs] in *.
  - destruct (a_arg r x) as [w|] eqn:E; [|discriminate]. injection H as <- <-.
    destruct (arg_sound _ _ _ _ _ _ _ _ _ HS E) as [o [-> Ho]]. cbn. exists bs, X. auto.
  - destruct (a_args l x) as [vs|] eqn:E; [|discriminate]. destruct (args_sound _ _ _ _ _ _ _ _ _ HS E) as [os [-> Ho]].
    cbn [xbind]. eapply fine_bind; [eapply build_sound; eauto|]. intros [n a'] [bs' [X' [S1 [S2 _]]]]. cbn. exists bs', X'. auto.
Qed.

(** all nodes so far are as documented *)
Definition inv (a : astate) : Prop := Forall as_documented (forest (held a)).
Lemma inv_steps : forall l a a', steps l a a' -> Forall as_documented l -> inv a -> inv a'.
Proof. intros l a a' H. apply steps_forall. exact H. Qed.
Lemma inv_kept : forall a a', kept a a' -> inv a -> inv a'.
Proof. intros a a' H. apply (inv_steps []); [apply steps_keep; exact H|constructor]. Qed.

Lemma rhs_inv : forall B x c a fs bs X r v y w, base_ok B -> st B x c a fs bs X -> a_rhs strict r x = Some (v, y) ->
  eval_rhs e r a = XOk w -> inv a -> inv (snd w).
Proof.
  intros B x c a fs bs X r v y w HB HS H HE HI. destruct r as [r|ct l]; cbn [a_rhs eval_rhs] in *.
  - destruct (eval_arg r a); cbn in HE; try discriminate. injection HE as <-. exact HI.
  - destruct (a_args l x) as [vs|] eqn:E; [|discriminate]. destruct (args_sound _ _ _ _ _ _ _ _ _ HS E) as [os [E1 Ho]].
    rewrite E1 in HE. cbn [xbind] in HE. pose proof (build_sound _ _ _ _ _ _ _ _ _ _ _ _ HB HS H Ho) as K.
    destruct (do_build e ct os a) as [[n b]| | |] eqn:E2; try discriminate HE. cbn [xbind fst snd] in HE. injection HE as <-.
    destruct K as [bs' [X' [_ [_ K]]]]. cbn [fst] in K.
    eapply inv_steps; [eapply st_grow; [eapply build_grown; eauto|constructor]|auto|exact HI].
Qed.

Lemma fill_sound : forall l, strict = true -> Forall err_ok l ->
  exists l', fill_contexts e l = XOk l' /\ Forall err_ok l'.
Proof.
  intros l Hs H. induction H as [|r l Hr Hl IH]; cbn [fill_contexts]; [exists []; auto|].
  destruct (pe_ctx r) as [c0|] eqn:Ec.
  - exists (r :: l). split; [auto|]. constructor; auto.
  - destruct Hr as [Hr|Hr]; [congruence|]. destruct (line_context _ _ 80) as [c0|] eqn:El; [|congruence].
    destruct IH as [l' [-> Hl']]. cbn [xbind]. eexists. split; [reflexivity|]. constructor; [|auto]. left. cbn. discriminate.
Qed.
Lemma fill_cases : forall l, fill_contexts e l = XAssert \/ exists l', fill_contexts e l = XOk l'.
Proof.
  induction l as [|r l IH]; cbn [fill_contexts]; [eauto|]. destruct (pe_ctx r); [eauto|].
  destruct (line_context _ _ 80); [|auto]. destruct IH as [-> |[l' ->]]; cbn; eauto.
Qed.

Lemma res_join_l : forall B x y z c a, base_ok B -> res_join (AOk x) (AOk y) = AOk z -> gam B x c a -> gam B z c a.
Proof.
  intros B x y z c a HB H. unfold res_join in H. destruct (env_le x (env_join x y) && env_le y (env_join x y)) eqn:E; [|discriminate].
  injection H as <-. apply andb_prop in E. apply env_le_ok; tauto.
Qed.
Lemma res_join_r : forall B x y z c a, base_ok B -> res_join (AOk x) (AOk y) = AOk z -> gam B y c a -> gam B z c a.
Proof.
  intros B x y z c a HB H. unfold res_join in H. destruct (env_le x (env_join x y) && env_le y (env_join x y)) eqn:E; [|discriminate].
  injection H as <-. apply andb_prop in E. apply env_le_ok; tauto.
Qed.

Lemma stmt_sound : forall s B x c a y, base_ok B -> gam B x c a -> a_stmt strict s x = Some y ->
  fine (exec_stmt e s a) (gam B y c).
Proof.
  induction s as [| r | r | | bb | | | o | r | l r | r s IH]; intros B x c a y HB HG H;
    destruct HG as [fs [bs [X HS]]]; cbn [a_stmt exec_stmt] in *.
  - injection H as <-. unfold do_finished. destruct HS as [F [K [P [O [R1 [R2 [E L]]]]]]].
    destruct strict eqn:Es.
    + destruct (fill_sound (rev (a_errs a)) Es) as [l' [-> Hl]].
      { apply Forall_rev. apply E. exact Es. }
      cbn [xbind fine]. exists fs, bs, X. refine (conj F (conj K (conj P (conj O (conj R1 (conj R2 (conj _ L))))))).
      intros _. cbn. apply Forall_rev. auto.
    + destruct (fill_cases (rev (a_errs a))) as [-> |[l' ->]]; cbn [xbind fine]; [exact Es|].
      exists fs, bs, X. refine (conj F (conj K (conj P (conj O (conj R1 (conj R2 (conj _ L))))))).
      intros Hs. congruence.
  - destruct (a_arg r x) as [v|] eqn:Ea; [|discriminate]. injection H as <-.
    destruct (arg_sound _ _ _ _ _ _ _ _ _ HS Ea) as [o [-> Ho]]. cbn [xbind fine]. exists fs, bs, X.
    destruct HS as [F [K [P [O [R1 [R2 [E L]]]]]]]. exact (conj F (conj K (conj P (conj O (conj R1 (conj Ho (conj E L))))))).
  - destruct (a_arg r x) as [v|] eqn:Ea; [|discriminate]. destruct (x_blocks x) as [|k ks] eqn:EX; [discriminate|].
    match type of H with (if ?u then _ else _) = _ => destruct u eqn:EU end; [|discriminate].
    apply andb_prop in EU. destruct EU as [EU U3]. apply andb_prop in EU. destruct EU as [U1 U2]. apply Nat.ltb_lt in U3.
    destruct (arg_sound _ _ _ _ _ _ _ _ _ HS Ea) as [o [-> Ho]]. cbn [xbind].
    destruct o as [n|]; [|cbn in Ho; rewrite Ho in U1; discriminate]. destruct Ho as [Ht Hl].
    destruct HS as [[F1 F2] [[K1 K2] [P [[O1 O2] [R1 [R2 [E L]]]]]]]. pose proof K2 as K2'. rewrite EX in K2.
    destruct (blks_top _ _ _ _ _ K2) as [b2 [rr [b1 [-> [M1 M2]]]]]. unfold do_seq_add. rewrite K1. cbn [List.app].
    assert (Hn : In n (b_kids b2)).
    { destruct (v_loc v) as [d| |]; try discriminate U2. cbn in U2. apply Nat.eqb_eq in U2. subst d.
      rewrite (top_len _ _ _ _ _ K2') in Hl. destruct Hl as [q [Hq Hn]]. rewrite nth_rev_top in Hq. congruence. }
    set (q' := mkblk (b_top b2) (b_bstart b2) (b_bend b2) (b_rstart b2) (b_rend b2) (b_seq b2 ++ [n]) (b_kids b2)).
    assert (HL : forall m l, loc_ok (a_prev a) (b2 :: rr) m l -> loc_ok (a_prev a) (q' :: rr) m l).
    { intros m l. apply loc_grow. auto. }
    assert (Hid : forall l, map_loc (fun x => x) l = l) by (intros []; reflexivity).
    assert (Hid2 : forall l, map_ret (fun x => x) l = l) by (intros [|w|]; cbn; rewrite ?Hid; reflexivity).
    assert (Hid3 : forall l, map (map (option_map (map_loc (fun x => x)))) l = l).
    { intros l. erewrite map_ext; [apply map_id|]. intros z. erewrite map_ext; [apply map_id|]. intros [w|]; cbn; rewrite ?Hid; reflexivity. }
    assert (HB' : blks_ok (B_blk B) c (mkab (k_sur k - 1) (k_empty k) (k_seq k ++ [One (v_ty v)]) :: ks) (q' :: rr)).
    { apply M2; [|repeat split]. destruct M1 as [ks1 [sq [W1 [W2 [W3 [W4 [W5 W6]]]]]]]. exists ks1, (sq ++ [n]). cbn.
      rewrite W2, <- app_assoc. repeat split; auto.
      - rewrite app_length. cbn. lia.
      - apply seq_in_app. exists sq, [n]. split; [auto|]. split; [auto|]. exists n, []. cbn. auto.
      - intros z Hz. apply in_app_or in Hz. destruct Hz as [Hz|[<-|[]]]; auto. }
    match type of H with match ?u with _ => _ end = _ => destruct u as [o'|] eqn:EO end; [|discriminate]. injection H as <-.
    cbn [fine]. exists fs, (q' :: rr), X. st_split.
    + rewrite <- (Hid3 (x_frames x)). eapply remap_frames; eauto.
    + destruct (x_ops x) as [j|[|j]|]; try discriminate EO; injection EO as <-; cbn in *; auto.
      destruct O2 as [z [z' [zr [Ez Hz]]]]. injection Ez as <- ->. exists q', z', zr. split; [auto|]. cbn. rewrite app_length. cbn. lia.
    + rewrite <- (Hid2 (x_ret x)). eapply remap_ret; eauto.
    + rewrite <- (Hid2 (x_res x)). eapply remap_ret; eauto.
  - injection H as <-. cbn. exists fs, bs, X. exact HS.
  - injection H as <-. cbn. exists fs, bs, X. exact HS.
  - destruct (x_prev x) as [| | |k] eqn:EP; try discriminate H. injection H as <-. pose proof HS as [_ [_ [P _]]]. rewrite EP in P.
    destruct P as [b [-> Hb]]. cbn. exists fs, bs, X. exact HS.
  - injection H as <-. cbn. exists fs, bs, X. exact HS.
  - destruct HS as [F [K [P [[O1 O2] [R1 [R2 [E L]]]]]]].
    destruct (x_ops x) as [j|j|] eqn:EO; try discriminate H; injection H as <-; cbn [fine]; exists fs, bs, (o :: X).
    + refine (conj F (conj K (conj P (conj (conj _ _) (conj R1 (conj R2 (conj E L))))))); cbn in *; [rewrite O1; auto|lia].
    + refine (conj F (conj K (conj P (conj (conj _ _) (conj R1 (conj R2 (conj E L))))))); cbn in *; [rewrite O1; auto|].
      destruct O2 as [b [b' [r [-> Hr]]]]. exists b, b', r. split; [auto|lia].
  - destruct (a_rhs strict r x) as [[v z]|] eqn:E; [|discriminate]. injection H as <-.
    eapply fine_bind; [eapply rhs_sound; eauto|]. intros [n a'] [bs' [X' [S1 S2]]]. cbn. exists fs, bs', X'. auto.
  - destruct l as [|k].
    + destruct (a_rhs strict r x) as [[v z]|] eqn:E; [|discriminate]. injection H as <-.
      eapply fine_bind; [eapply rhs_sound; eauto|]. intros [n a'] [bs' [X' [S1 S2]]]. cbn [fine fst snd]. exists fs, bs', X'.
      destruct S1 as [F [K [P [O [R1 [R2 [Er L]]]]]]]. exact (conj F (conj K (conj P (conj O (conj S2 (conj R2 (conj Er L))))))).
    + destruct (a_rhs strict r x) as [[v z]|] eqn:E; [|discriminate].
      eapply fine_bind; [eapply rhs_sound; eauto|]. intros [n a'] [bs' [X' [S1 S2]]]. cbn [fst snd] in *.
      eapply put_sound; eauto.
  - destruct (a_arg r x) as [v|] eqn:Ea; [|discriminate]. destruct (a_stmt strict s x) as [z|] eqn:Es; [|discriminate].
    destruct (arg_sound _ _ _ _ _ _ _ _ _ HS Ea) as [o [-> Ho]]. cbn [xbind].
    destruct (res_join (AOk x) (AOk z)) as [| |j] eqn:EJ; try discriminate H. cbn in H. injection H as <-.
    assert (HG : gam B x c a) by (exists fs, bs, X; auto).
    match goal with |- fine (if ?u then _ else _) _ => destruct u end.
    + cbn [fine]. eapply res_join_l; eauto.
    + eapply fine_imp; [eapply IH; eauto|]. intros a' Ha'. eapply res_join_r; eauto.
Qed.

Lemma stmt_inv : forall s B x c a y a', base_ok B -> gam B x c a -> a_stmt strict s x = Some y ->
  exec_stmt e s a = XOk a' -> inv a -> inv a'.
Proof.
  induction s as [| r | r | | bb | | | o | r | l r | r s IH]; intros B x c a y a' HB HG H HE HI; cbn [a_stmt] in H.
  9:{ destruct (a_rhs strict r x) as [[v z]|] eqn:E; [|discriminate]. destruct HG as [fs [bs [X HS]]]. cbn [exec_stmt] in HE.
      destruct (eval_rhs e r a) as [[n b]| | |] eqn:E2; try discriminate HE. cbn [xbind snd] in HE. injection HE as <-.
      apply (rhs_inv _ _ _ _ _ _ _ _ _ _ _ HB HS E E2 HI). }
  9:{ assert (exists v z, a_rhs strict r x = Some (v, z)) as [v [z E]].
      { destruct l; destruct (a_rhs strict r x) as [[v z]|]; try discriminate H; eauto. }
      destruct HG as [fs [bs [X HS]]]. destruct l as [|k]; cbn [exec_stmt] in HE;
        destruct (eval_rhs e r a) as [[n b]| | |] eqn:E2; try discriminate HE; cbn [xbind fst snd] in HE;
        pose proof (rhs_inv _ _ _ _ _ _ _ _ _ _ _ HB HS E E2 HI) as K; cbn [snd] in K.
      - injection HE as <-. eapply inv_kept; [|exact K]. apply kept_eq; reflexivity.
      - eapply inv_kept; [|exact K]. eapply put_kept; eauto. }
  9:{ destruct (a_arg r x) as [v|] eqn:Ea; [|discriminate]. destruct (a_stmt strict s x) as [z|] eqn:Es; [|discriminate].
      cbn [exec_stmt] in HE. destruct (eval_arg r a) as [w| | |]; try discriminate HE. cbn [xbind] in HE.
      match type of HE with (if ?u then _ else _) = _ => destruct u end; [|eauto]. injection HE as <-. exact HI. }
  all: destruct (stmt_steps _ _ _ _ HE) as [l Hl]; eapply inv_kept; [|exact HI]; clear -HE; cbn [exec_stmt] in HE;
    try (injection HE as <-; apply kept_eq; reflexivity).
  - unfold do_finished in HE. destruct (fill_contexts _ _); cbn in HE; try discriminate. injection HE as <-. apply kept_eq; reflexivity.
  - destruct (eval_arg r a); cbn in HE; try discriminate. injection HE as <-. apply kept_eq; reflexivity.
  - destruct (eval_arg r a) as [[n|]| | |]; cbn in HE; try discriminate. destruct (a_blocks a) as [|b bs] eqn:EB; [discriminate|].
    injection HE as <-. apply kept_eq; [|reflexivity]. unfold held. cbn. rewrite EB. reflexivity.
  - destruct (a_prev a) eqn:EP; [|discriminate]. injection HE as <-. apply kept_eq; reflexivity.
Qed.

Lemma stmts_sound : forall l B x c a y, base_ok B -> gam B x c a -> a_stmts strict l x = Some y ->
  fine (exec_stmts e l a) (gam B y c).
Proof.
  induction l as [|s l IH]; intros B x c a y HB HG H; cbn [a_stmts exec_stmts] in *.
  - injection H as <-. exact HG.
  - destruct (a_stmt strict s x) as [z|] eqn:E; [|discriminate]. eapply fine_bind; [eapply stmt_sound; eauto|].
    intros a' Ha'. eapply IH; eauto.
Qed.

Lemma stmts_inv : forall l B x c a y a', base_ok B -> gam B x c a -> a_stmts strict l x = Some y ->
  exec_stmts e l a = XOk a' -> inv a -> inv a'.
Proof.
  induction l as [|s l IH]; intros B x c a y a' HB HG H HE HI; cbn [a_stmts exec_stmts] in *.
  - injection HE as <-. exact HI.
  - destruct (a_stmt strict s x) as [z|] eqn:E; [|discriminate]. pose proof (stmt_sound _ _ _ _ _ _ HB HG E) as K.
    destruct (exec_stmt e s a) as [b| | |] eqn:E2; try discriminate HE. cbn [xbind] in HE.
    eapply (IH B z c b); [exact HB|exact K|exact H|exact HE|].
    exact (stmt_inv _ _ _ _ _ _ _ HB HG E E2 HI).
Qed.

Lemma action_inv : forall t B x c p a y a', base_ok B -> gam B x c a -> a_action strict t x = Some y ->
  exec_action e t p a = XOk a' -> inv a -> inv a'.
Proof.
  intros t B x c p a y a' HB HG H HE HI. destruct t as [n|k|n| | | | |l]; cbn [a_action] in H.
  8:{ eapply stmts_inv; eauto. }
  all: destruct (action_quiet _ _ _ _ _ HE) as [K|K]; [eapply inv_steps; [exact K|constructor|exact HI]|destruct K as [l K]; discriminate K].
Qed.

Lemma action_sound : forall t B x c p a y, base_ok B -> gam B x c a -> c <= p -> p <= e_pos e -> a_action strict t x = Some y ->
  fine (exec_action e t p a) (gam B y p).
Proof.
  intros t B x c p a y HB HG Hc Hp H. destruct t as [n|k|n| | | | |l]; cbn [a_action exec_action] in *.
  all: try (eapply start_sound; eauto; fail); try (eapply end_sound; eauto; fail); try (eapply replace_sound; eauto; fail);
    try (eapply merge_sound; eauto; fail); try (eapply fine_imp; [eapply stmts_sound; eauto|]; intros; eapply gam_later; eauto; fail).
  all: apply (gam_later _ _ _ _ _ Hc) in HG; destruct HG as [fs [bs [X HS]]].
  - injection H as <-. cbn [fine]. exists (repeat None n :: fs), bs, X. destruct HS as [[F1 F2] R]. split; [|exact R]. cbn. rewrite F1.
    split; [reflexivity|]. constructor; [|auto]. clear. induction n; cbn; constructor; auto. exact I.
  - destruct (x_frames x) as [|f fx] eqn:EF; [discriminate|]. injection H as <-. destruct HS as [[F1 F2] R].
    rewrite EF in F2. inversion F2 as [|? g ? gs G1 G2]; subst. cbn [fine]. exists gs, bs, X. split; [|exact R].
    cbn. rewrite F1. auto.
  - destruct (x_ret x) as [|v|] eqn:ER; try discriminate H. eapply put_sound; eauto.
    destruct HS as [F [K [P [O [R1 [R2 [Er L]]]]]]]. rewrite ER in R1. exact R1.
Qed.

(** *** Calls *)
Definition callee (B : base) (a : astate) : base :=
  mkbase (a_frames a) (hd empty_blk (a_blocks a)) (tl (a_blocks a)) (a_prev a) (a_ops a) (a_ret a) (a_result a) (a_lost a).

Lemma enter_ok : forall B x c a q qs, gam B x c a -> x_blocks x = q :: qs -> gam (callee B a) entry_env c a.
Proof.
  intros B x c a q qs [fs [bs [X [_ [[K1 K2] [_ [_ [_ [_ [E _]]]]]]]]]] EX. rewrite EX in K2.
  destruct (blks_top _ _ _ _ _ K2) as [b2 [r [b1 [-> [M1 M2]]]]].
  exists [], [b2], []. unfold callee. st_split.
  - constructor.
  - rewrite K1. reflexivity.
  - rewrite K1. cbn. split; [apply blk_ok_fresh|repeat split].
  - right. reflexivity.
Qed.

Lemma call_sound : forall B x m y c d a a', base_ok B -> gam B x c a -> c <= d -> a_call m x = Some y ->
  gam (callee B a) m d a' -> gam B y d a'.
Proof.
  intros B x m y c d a a' HB HG Hcd H HM. unfold a_call in H.
  destruct (x_frames m) as [|] eqn:EF; [|discriminate]. destruct (x_blocks m) as [|k [|]] eqn:EM; try discriminate H.
  destruct (x_blocks x) as [|q qs] eqn:EX; [discriminate|]. destruct (x_ops m) as [n| |] eqn:EO; try discriminate H.
  match type of H with (if ?u then _ else _) = _ => destruct u eqn:EU end; [|discriminate].
  apply andb_prop in EU. destruct EU as [U1 U2]. injection H as <-.
  apply (gam_later _ _ _ _ _ Hcd) in HG.
  destruct HG as [fs [bs [X [[F1 F2] [[K1 K2] [P [[O1 O2] [R1 [R2 [E L]]]]]]]]]].
  destruct HM as [fs' [bs' [X' [[F1' F2'] [[K1' K2'] [P' [[O1' O2'] [R1' [R2' [E' L']]]]]]]]]].
  rewrite EF in F2'. inversion F2'; subst fs'. rewrite EM in K2'. pose proof K2 as K2o. rewrite EX in K2.
  destruct (blks_top _ _ _ _ _ K2) as [b2 [r [b1 [-> [M1 M2]]]]].
  destruct bs' as [|b' [|]]; cbn in K2'; try tauto. cbn in K1'. rewrite K1 in K2', K1'. cbn in K2', K1'.
  destruct K2' as [[ks [sq [W1 [W2 [W3 [W4 [W5 W6]]]]]]] Hhd]. rewrite EO in O2'. cbn in O2'. cbn in O1', F1', R1', R2', L', P'.
  assert (Hin : forall z, In z (b_kids b2) -> In z (b_kids b')).
  { intros z Hz. rewrite W1. apply in_or_app. auto. }
  assert (HL : forall z l, loc_ok (a_prev a) (b2 :: r) z l -> loc_ok (a_prev a') (b' :: r) z (forget l)).
  { intros z l Hl. eapply loc_forget. eapply loc_grow; [|exact Hl]. exact Hin. }
  assert (HL2 : forall z l, loc_ok (a_prev a') [b'] z l -> loc_ok (a_prev a') (b' :: r) z (shift_loc (top_idx x) l)).
  { intros z [[|i]| |] Hl; cbn; auto. rewrite (top_len _ _ _ _ _ K2o). destruct Hl as [z' [Hz1 Hz2]]. cbn in Hz1. injection Hz1 as <-.
    exists b'. split; [apply nth_rev_top|auto]. }
  assert (HR : forall w r0 o r1 o1, ret_ok w (a_prev a) (b2 :: r) r0 o -> ret_ok o (a_prev a') [b'] r1 o1 ->
    ret_ok w (a_prev a') (b' :: r) (match r1 with RKeep => map_ret forget r0 | RVal v => RVal (map_loc (shift_loc (top_idx x)) v) | RAny => RAny end) o1).
  { intros w r0 o r1 o1 H1 H2. destruct r1 as [|v|]; cbn in H2 |- *; auto.
    - subst o1. eapply remap_ret; eauto.
    - eapply remap_val; eauto. }
  exists fs, (b' :: r), (X' ++ X). st_split.
  - rewrite F1'. auto.
  - apply M2; [|exact Hhd]. destruct M1 as [ks0 [sq0 [V1 [V2 [V3 [V4 [V5 V6]]]]]]]. exists (ks0 ++ ks), (sq0 ++ sq). cbn.
    rewrite W1, W2, V1, V2, !app_assoc. repeat split; auto.
    + rewrite !app_length. lia.
    + intros He. apply andb_prop in He. destruct He as [He1 He2]. rewrite (V4 He1), (W4 He2). reflexivity.
    + apply seq_in_app. exists sq0, sq. auto.
    + intros z Hz. apply in_app_or in Hz. rewrite <- V1, <- W1. destruct Hz as [Hz|Hz]; auto.
  - pose proof (clean_ok _ _ _ HB U1 P) as HC. destruct (x_prev m) as [| | |k']; cbn in P' |- *; auto.
    destruct (x_prev x) as [| | |k'']; cbn in P |- *; destruct P' as [-> | ->]; auto; try exact I; try (rewrite P; exact I);
      try exact HC.
  - rewrite O1', O1, app_assoc. reflexivity.
  - destruct (x_ops x) as [j|j|]; cbn in O2 |- *; try discriminate U2.
    + rewrite app_length. lia.
    + destruct (k_seq k); [|discriminate U2]. cbn in W5. subst sq. rewrite app_nil_r in W2.
      destruct O2 as [z [z' [zr [Ez Hz]]]]. injection Ez as <- ->. exists b', z', zr. split; [auto|]. rewrite app_length, W2. lia.
  - eapply HR; eauto.
  - eapply HR; eauto.
  - congruence.
Qed.

(** *** Expressions *)
Section Emits.
Variable G : rule -> cexp.

(** the actions that a match of an expression can leave behind, in order *)
Inductive emits : cexp -> list (action * nat) -> Prop :=
| em_dot : emits PDot []
| em_char : forall c, emits (PChar c) []
| em_str : forall c, emits (PStr c) []
| em_class : forall c, emits (PClass c) []
| em_and : forall e0, emits (PAnd e0) []
| em_not : forall e0, emits (PNot e0) []
| em_rule : forall r l, emits (G r) l -> emits (PRule r) l
| em_seq : forall e1 e2 l1 l2, emits e1 l1 -> emits e2 l2 -> emits (PSeq e1 e2) (l1 ++ l2)
| em_alt1 : forall e1 e2 l, emits e1 l -> emits (PAlt e1 e2) l
| em_alt2 : forall e1 e2 l, emits e2 l -> emits (PAlt e1 e2) l
| em_query0 : forall e0, emits (PQuery e0) []
| em_query : forall e0 l, emits e0 l -> emits (PQuery e0) l
| em_star0 : forall e0, emits (PStar e0) []
| em_star : forall e0 l1 l2, emits e0 l1 -> emits (PStar e0) l2 -> emits (PStar e0) (l1 ++ l2)
| em_plus : forall e0 l1 l2, emits e0 l1 -> emits (PStar e0) l2 -> emits (PPlus e0) (l1 ++ l2)
| em_act : forall t p, emits (PAct t) [(t, p)]
| em_do : forall t p, emits (PPred (QDo t)) [(t, p)]
| em_pred : forall q, (forall t, q <> QDo t) -> q <> QConst false -> emits (PPred q) []
| em_err : forall e0 x l, emits e0 l -> emits (PErr e0 x) l.

(** positions of the thunks, from [c] to [d] *)
Fixpoint upto (c : nat) (l : list (action * nat)) (d : nat) : Prop :=
  match l with [] => c <= d | (_, p) :: l => c <= p /\ upto p l d end.
Lemma upto_app : forall l1 l2 c d, upto c (l1 ++ l2) d -> exists m, upto c l1 m /\ upto m l2 d.
Proof.
  induction l1 as [|[t p] l1 IH]; intros l2 c d H; cbn in *.
  - exists c. auto.
  - destruct H as [H1 H2]. destruct (IH _ _ _ H2) as [m [M1 M2]]. exists m. auto.
Qed.
Lemma upto_le : forall l c d, upto c l d -> c <= d.
Proof. induction l as [|[t p] l IH]; intros c d H; cbn in H; [auto|]. destruct H as [H1 H2]. apply IH in H2. lia. Qed.
Lemma exec_app : forall l1 l2 a, exec e (l1 ++ l2) a = xbind (exec e l1 a) (exec e l2).
Proof.
  induction l1 as [|[t p] l1 IH]; intros l2 a; cbn; [reflexivity|]. destruct (exec_action e t p a); cbn; auto.
Qed.

(** from [x], the actions [l] lead to [y] *)
Definition good (x : aenv) (l : list (action * nat)) (y : aenv) : Prop :=
  forall B c d a, base_ok B -> gam B x c a -> upto c l d -> d <= e_pos e -> inv a ->
    fine (exec e l a) (fun a' => gam B y d a' /\ inv a').

Lemma good_nil : forall x, good x [] x.
Proof. intros x B c d a HB HG H Hd HI. cbn in *. split; [|exact HI]. eapply gam_later; eauto. Qed.
Lemma good_app : forall x l1 y l2 z, good x l1 y -> good y l2 z -> good x (l1 ++ l2) z.
Proof.
  intros x l1 y l2 z H1 H2 B c d a HB HG H Hd HI. rewrite exec_app. destruct (upto_app _ _ _ _ H) as [m [M1 M2]].
  pose proof (upto_le _ _ _ M2). eapply fine_bind; [eapply H1; eauto; lia|]. intros a' [Ha' HI']. eapply H2; eauto.
Qed.
Lemma good_le : forall x l y z, good x l y -> env_le y z = true -> good x l z.
Proof.
  intros x l y z H1 H2 B c d a HB HG H Hd HI. eapply fine_imp; [eapply H1; eauto|]. intros a' [Ha' HI']. split; [|exact HI'].
  eapply env_le_ok; eauto.
Qed.
Lemma good_le_l : forall x l y z, env_le x y = true -> good y l z -> good x l z.
Proof.
  intros x l y z H1 H2 B c d a HB HG H Hd HI. eapply H2; eauto. eapply env_le_ok; eauto.
Qed.
Lemma good_act : forall t p x y, a_action strict t x = Some y -> good x [(t, p)] y.
Proof.
  intros t p x y H B c d a HB HG Hu Hd HI. cbn in Hu. destruct Hu as [H1 H2]. cbn [exec].
  assert (K : fine (exec_action e t p a) (gam B y p)) by (eapply action_sound; eauto; lia).
  pose proof (fun a' HE => action_inv t B x c p a y a' HB HG H HE HI) as KI.
  destruct (exec_action e t p a) as [a'| | |]; cbn in K |- *; auto. split; [eapply gam_later; eauto|auto].
Qed.
Lemma good_join : forall x l y z j, res_join (AOk y) (AOk z) = AOk j -> good x l y \/ good x l z -> good x l j.
Proof.
  intros x l y z j H [H1|H1] B c d a HB HG Hu Hd HI; (eapply fine_imp; [eapply H1; eauto|]); intros a' [Ha' HI']; (split; [|exact HI']).
  - eapply res_join_l; eauto.
  - eapply res_join_r; eauto.
Qed.

Variable inl : rule -> bool.
Variable tab : rule -> option aenv.
Variable F : nat.
Notation aexec := (a_exec strict G inl tab).
Notation astar := (a_star strict G inl tab).
Hypothesis tab_ok : forall r, inl r = false ->
  match tab r, aexec F (G r) entry_env with
  | Some m, AOk x => env_le x m = true
  | _, ABot => True
  | _, _ => False
  end.

(** what a loop settles on *)
Lemma star_inv : forall n k e0 x y, astar n k e0 x = AOk y ->
  (forall l z, good y l z -> good x l z) /\
  exists n', aexec n' e0 y = ABot \/ exists z, aexec n' e0 y = AOk z /\ env_le z y = true.
Proof.
  induction n as [|n IH]; intros k e0 x y H; [discriminate H|].
  destruct k as [|k]; [discriminate H|]. change (astar (S n) (S k) e0 x) with
    (match aexec n e0 x with
     | ABot => AOk x | AErr => AErr
     | AOk y => if env_le y x then AOk x
                else if env_le x (env_join x y) then astar n k e0 (env_join x y) else AErr
     end) in H.
  destruct (aexec n e0 x) as [| |z] eqn:E; [|discriminate|].
  - injection H as <-. split; [auto|]. exists n. auto.
  - destruct (env_le z x) eqn:E1.
    + injection H as <-. split; [auto|]. exists n. right. eauto.
    + destruct (env_le x (env_join x z)) eqn:E2; [|discriminate]. destruct (IH _ _ _ _ H) as [H1 H2].
      split; [|auto]. intros l w Hw.  eapply good_le_l; eauto.
Qed.
Lemma star_bot : forall n k e0 x, astar n k e0 x <> ABot.
Proof.
  induction n as [|n IH]; intros k e0 x H; [discriminate H|].
  destruct k as [|k]; [discriminate H|]. change (astar (S n) (S k) e0 x) with
    (match aexec n e0 x with
     | ABot => AOk x | AErr => AErr
     | AOk y => if env_le y x then AOk x
                else if env_le x (env_join x y) then astar n k e0 (env_join x y) else AErr
     end) in H.
  destruct (aexec n e0 x) as [| |z]; try discriminate H. destruct (env_le z x); [discriminate H|].
  destruct (env_le x (env_join x z)); [|discriminate H]. eapply IH; eauto.
Qed.

Definition sound1 (e0 : cexp) (l : list (action * nat)) : Prop :=
  forall n x, match aexec n e0 x with AErr => True | ABot => False | AOk y => good x l y end.
Definition sound2 (e0 : cexp) (l : list (action * nat)) : Prop :=
  match e0 with
  | PStar e1 => forall n y, (aexec n e1 y = ABot \/ exists z, aexec n e1 y = AOk z /\ env_le z y = true) -> good y l y
  | _ => True
  end.

Lemma sound_all : forall e0 l, emits e0 l -> sound1 e0 l /\ sound2 e0 l.
Proof.
  intros e0 l H.
  induction H as [|c|c|c|e1|e1|r l Hl [IH _]|e1 e2 l1 l2 H1 [IH1 _] H2 [IH2 _]|e1 e2 l H1 [IH _]|e1 e2 l H1 [IH _]
                 |e1|e1 l H1 [IH _]|e1|e1 l1 l2 H1 [IH1 _] H2 [_ IH2]|e1 l1 l2 H1 [IH1 _] H2 [_ IH2]|t p|t p|q Hq1 Hq2|e1 x l H1 [IH _]];
    (split; [|try exact I]).
  all: try (intros [|n] x; cbn [a_exec]; [exact I|apply good_nil]; fail).
  - intros [|n] x; cbn [a_exec]; [exact I|]. destruct (inl r) eqn:Ei.
    + apply IH.
    + pose proof (tab_ok r Ei) as HT. specialize (IH F entry_env).
      destruct (tab r) as [m|]; destruct (aexec F (G r) entry_env) as [| |y]; try tauto.
      unfold of_act. destruct (a_call m x) as [z|] eqn:EC; [|exact I].
      intros B c d a HB HG Hu Hd' HI.
      assert (exists q qs, x_blocks x = q :: qs) as [q [qs EX]].
      { unfold a_call in EC. destruct (x_frames m); [|discriminate]. destruct (x_blocks m) as [|? [|]]; try discriminate EC.
        destruct (x_blocks x); [discriminate|eauto]. }
      assert (HC : base_ok (callee B a)).
      { unfold base_ok. cbn. unfold a_call in EC. destruct (x_frames m); [|discriminate]. destruct (x_blocks m) as [|? [|]]; try discriminate EC.
        rewrite EX in EC. destruct (x_ops m); try discriminate EC. destruct (clean (x_prev x)) eqn:ECl; [|discriminate].
        destruct HG as [fs [bs [X [_ [_ [P _]]]]]]. eapply clean_ok; eauto. }
      eapply fine_imp; [eapply IH; [exact HC|eapply enter_ok; eauto|exact Hu|exact Hd'|exact HI]|].
      intros a' [Ha' HI']. split; [|exact HI']. eapply call_sound; [exact HB|exact HG|eapply upto_le; eauto|exact EC|].
      eapply env_le_ok; eauto.
  - intros [|n] x; cbn [a_exec]; [exact I|]. specialize (IH1 n x). destruct (aexec n e1 x) as [| |y]; auto.
    specialize (IH2 n y). destruct (aexec n e2 y) as [| |z]; auto. eapply good_app; eauto.
  - intros [|n] x; cbn [a_exec]; [exact I|]. specialize (IH n x). destruct (aexec n e1 x) as [| |y]; cbn; auto; [tauto|].
    destruct (aexec n e2 x) as [| |z]; cbn [res_join]; auto.
    destruct (res_join (AOk y) (AOk z)) as [| |j] eqn:EJ; cbn [res_join] in EJ;
      destruct (env_le y (env_join y z) && env_le z (env_join y z)) eqn:EE; try discriminate EJ; auto.
    eapply (good_join x l y z); [cbn [res_join]; rewrite EE; reflexivity|auto].
  - intros [|n] x; cbn [a_exec]; [exact I|]. specialize (IH n x). destruct (aexec n e2 x) as [| |z]; cbn; auto; [tauto| |].
    + destruct (aexec n e1 x); exact I.
    + destruct (aexec n e1 x) as [| |y]; cbn [res_join]; auto.
      destruct (env_le y (env_join y z) && env_le z (env_join y z)) eqn:EE; auto.
      eapply (good_join x l y z); [cbn [res_join]; rewrite EE; reflexivity|auto].
  - intros [|n] x; cbn [a_exec]; [exact I|]. destruct (aexec n e1 x) as [| |z]; cbn [res_join]; auto; [apply good_nil|].
    destruct (env_le x (env_join x z) && env_le z (env_join x z)) eqn:EE; auto.
    eapply (good_join x [] x z); [cbn [res_join]; rewrite EE; reflexivity|left; apply good_nil].
  - intros [|n] x; cbn [a_exec]; [exact I|]. specialize (IH n x). destruct (aexec n e1 x) as [| |z]; cbn [res_join]; auto; [tauto|].
    destruct (env_le x (env_join x z) && env_le z (env_join x z)) eqn:EE; auto.
    eapply (good_join x l x z); [cbn [res_join]; rewrite EE; reflexivity|right; auto].
  - intros [|n] x; [exact I|]. change (aexec (S n) (PStar e1) x) with (astar n 5 e1 x). destruct (astar n 5 e1 x) as [| |y] eqn:ES; [exact (star_bot _ _ _ _ ES)|exact I|].
    destruct (star_inv _ _ _ _ _ ES) as [S1 S2]. apply S1. apply good_nil.
  - intros n y _. apply good_nil.
  - intros [|n] x; [exact I|]. change (aexec (S n) (PStar e1) x) with (astar n 5 e1 x). destruct (astar n 5 e1 x) as [| |y] eqn:ES; [exact (star_bot _ _ _ _ ES)|exact I|].
    destruct (star_inv _ _ _ _ _ ES) as [S1 [n' S2]]. apply S1. cbn [sound2] in IH2. specialize (IH2 n' y S2).
    specialize (IH1 n' y). destruct S2 as [S2|[z [S2 S3]]]; rewrite S2 in IH1; [destruct IH1|].
    eapply good_app; [eapply good_le; eauto|auto].
  - cbn [sound2]. intros n' y S2. cbn [sound2] in IH2. specialize (IH2 n' y S2).
    specialize (IH1 n' y). destruct S2 as [S2|[z [S2 S3]]]; rewrite S2 in IH1; [destruct IH1|].
    eapply good_app; [eapply good_le; eauto|auto].
  - intros [|n] x; [exact I|].
    change (aexec (S n) (PPlus e1) x) with (match aexec n e1 x with AOk y => astar n 5 e1 y | r => r end).
    specialize (IH1 n x). destruct (aexec n e1 x) as [| |y0]; auto.
    destruct (astar n 5 e1 y0) as [| |y] eqn:ES; [exact (star_bot _ _ _ _ ES)|exact I|].
    destruct (star_inv _ _ _ _ _ ES) as [S1 [n' S2]]. eapply good_app; [exact IH1|]. apply S1. eapply IH2; eauto.
  - intros [|n] x; cbn [a_exec]; [exact I|]. unfold of_act. destruct (a_action strict t x) eqn:E; [|exact I]. apply good_act. auto.
  - intros [|n] x; cbn [a_exec]; [exact I|]. unfold of_act. destruct (a_action strict t x) eqn:E; [|exact I]. apply good_act. auto.
  - intros [|n] x; cbn [a_exec]; [exact I|]. destruct q as [t| | | | | | | |[]|]; try apply good_nil; [destruct (Hq1 t)|destruct Hq2]; reflexivity.
  - intros [|n] x0; cbn [a_exec]; [exact I|]. apply IH.
Qed.
End Emits.
End Sound.
