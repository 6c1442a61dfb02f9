(** * Annotations: the pointer structure is a finite map *)
From Coq Require Import List Bool Arith Lia.
From Verif Require Import AnnotModel AnnotSpec.
Import ListNotations.

(** ** Neighbours in a list *)

Fixpoint succ (l : list addr) (a : addr) : option addr :=
  match l with
  | [] => None
  | x :: l => if Nat.eqb x a then hd_error l else succ l a
  end.
Definition pred (l : list addr) (a : addr) : option addr := succ (rev l) a.
Definition rm (a : addr) (l : list addr) : list addr := filter (fun b => negb (Nat.eqb a b)) l.

Lemma oeqb_true : forall a b, oeqb a b = true <-> a = b.
Proof.
  intros [a|] [b|]; cbn; rewrite ?Nat.eqb_eq; split; intros H; try congruence; try reflexivity.
Qed.
Lemma oeqb_false : forall a b, oeqb a b = false <-> a <> b.
Proof. intros a b. rewrite <- oeqb_true. destruct (oeqb a b); split; congruence. Qed.

Lemma rm_not_in : forall a l, ~ In a l -> rm a l = l.
Proof.
  induction l as [|x l IH]; intros H; [reflexivity|]. cbn. cbn in H.
  rewrite (proj2 (Nat.eqb_neq a x)) by intuition. cbn. f_equal. apply IH. intuition.
Qed.

Lemma rm_split : forall a l1 l2, ~ In a l1 -> ~ In a l2 -> rm a (l1 ++ a :: l2) = l1 ++ l2.
Proof.
  intros a l1 l2 H1 H2. assert (E : rm a (l1 ++ a :: l2) = rm a l1 ++ rm a l2).
  { unfold rm. rewrite filter_app. cbn. now rewrite Nat.eqb_refl. }
  now rewrite E, !rm_not_in.
Qed.

Lemma in_rm : forall a b l, In b (rm a l) <-> In b l /\ b <> a.
Proof.
  intros. unfold rm. rewrite filter_In, negb_true_iff, Nat.eqb_neq. intuition.
Qed.

Lemma rev_rm : forall a l, rev (rm a l) = rm a (rev l).
Proof.
  induction l as [|x l IH]; [reflexivity|]. cbn [rm filter rev]. unfold rm in *. rewrite filter_app. cbn.
  destruct (Nat.eqb a x); cbn; rewrite IH; [now rewrite app_nil_r|reflexivity].
Qed.

Lemma succ_split : forall a l1 l2, ~ In a l1 -> succ (l1 ++ a :: l2) a = hd_error l2.
Proof.
  induction l1 as [|x l1 IH]; intros l2 H; cbn.
  - now rewrite Nat.eqb_refl.
  - cbn in H. rewrite (proj2 (Nat.eqb_neq x a)) by intuition. apply IH. intuition.
Qed.

Lemma succ_none : forall l a, ~ In a l -> succ l a = None.
Proof.
  induction l as [|x l IH]; intros a H; [reflexivity|]. cbn in *. rewrite (proj2 (Nat.eqb_neq x a)) by intuition. apply IH. intuition.
Qed.

Lemma succ_in : forall l a b, succ l a = Some b -> In a l /\ In b l.
Proof.
  induction l as [|x l IH]; intros a b H; [discriminate|]. cbn in *. destruct (Nat.eqb x a) eqn:E.
  - apply Nat.eqb_eq in E. subst. destruct l; [discriminate|]. cbn in H. injection H as ->. cbn. auto.
  - destruct (IH _ _ H). auto.
Qed.

Lemma pred_split : forall a l1 l2, ~ In a l2 -> pred (l1 ++ a :: l2) a = hd_error (rev l1).
Proof.
  intros a l1 l2 H. unfold pred. rewrite rev_app_distr. cbn. rewrite <- app_assoc. cbn. apply succ_split.
  now rewrite <- in_rev.
Qed.

Lemma nodup_split : forall (a : addr) l, NoDup l -> In a l -> exists l1 l2, l = l1 ++ a :: l2 /\ ~ In a l1 /\ ~ In a l2.
Proof.
  intros a l Hn Hi. destruct (in_split _ _ Hi) as (l1 & l2 & ->). exists l1, l2. split; [reflexivity|].
  apply NoDup_remove_2 in Hn. rewrite in_app_iff in Hn. intuition.
Qed.

Lemma succ_rm : forall l a b, NoDup l -> b <> a ->
  succ (rm a l) b = if oeqb (succ l b) (Some a) then succ l a else succ l b.
Proof.
  induction l as [|x l IH]; intros a b Hn Hb; [reflexivity|]. inversion Hn; subst.
  cbn [rm filter succ]. fold (rm a l). destruct (Nat.eqb a x) eqn:Ea; cbn [negb].
  - apply Nat.eqb_eq in Ea. subst x. rewrite Nat.eqb_refl, (proj2 (Nat.eqb_neq a b)) by congruence.
    rewrite rm_not_in by assumption.
    destruct (oeqb (succ l b) (Some a)) eqn:E; [|reflexivity].
    apply oeqb_true in E. apply succ_in in E. tauto.
  - apply Nat.eqb_neq in Ea. rewrite (proj2 (Nat.eqb_neq x a)) by congruence. cbn [succ].
    destruct (Nat.eqb x b) eqn:Eb.
    + destruct l as [|y l]; [reflexivity|]. cbn [hd_error rm filter]. destruct (Nat.eqb a y) eqn:Ey; cbn [negb].
      * apply Nat.eqb_eq in Ey. subst y. cbn [oeqb]. rewrite Nat.eqb_refl. cbn [succ]. rewrite Nat.eqb_refl.
        fold (rm a l). inversion H2; subst. now rewrite rm_not_in.
      * cbn. rewrite Nat.eqb_sym, Ey. reflexivity.
    + apply IH; assumption.
Qed.

Lemma pred_succ : forall l a b, NoDup l -> (pred l a = Some b <-> succ l b = Some a).
Proof.
  intros l a b Hn. split; intros H.
  - assert (Ha : In a l) by (apply succ_in in H; rewrite <- !in_rev in H; tauto).
    destruct (nodup_split a l Hn Ha) as (l1 & l2 & -> & H1 & H2). rewrite pred_split in H by assumption.
    destruct (rev l1) as [|x r] eqn:E; [discriminate|]. injection H as ->.
    apply (f_equal (@rev _)) in E. rewrite rev_involutive in E. cbn in E. subst l1.
    rewrite <- app_assoc. cbn. apply succ_split. intros Hi.
    rewrite <- app_assoc in Hn. apply NoDup_remove_2 in Hn. apply Hn. rewrite in_app_iff. now left.
  - assert (Hb : In b l) by (apply succ_in in H; tauto).
    destruct (nodup_split b l Hn Hb) as (l1 & l2 & -> & H1 & H2). rewrite succ_split in H by assumption.
    destruct l2 as [|x l2]; [discriminate|]. injection H as ->.
    change (l1 ++ b :: a :: l2) with (l1 ++ [b] ++ a :: l2). rewrite app_assoc. rewrite pred_split.
    + rewrite rev_app_distr. reflexivity.
    + intros Hi. replace (l1 ++ b :: a :: l2) with ((l1 ++ [b]) ++ a :: l2) in Hn by now rewrite <- app_assoc.
      apply NoDup_remove_2 in Hn. apply Hn. rewrite in_app_iff. now right.
Qed.

Lemma pred_rm : forall l a b, NoDup l -> b <> a ->
  pred (rm a l) b = if oeqb (pred l b) (Some a) then pred l a else pred l b.
Proof. intros l a b Hn Hb. unfold pred. rewrite rev_rm. apply succ_rm; [now apply NoDup_rev|exact Hb]. Qed.

Lemma pred_none_head : forall l a, NoDup l -> In a l -> pred l a = None -> hd_error l = Some a.
Proof.
  intros l a Hn Hi H. destruct (nodup_split a l Hn Hi) as (l1 & l2 & -> & H1 & H2).
  rewrite pred_split in H by assumption. destruct l1 as [|x l1]; [reflexivity|].
  cbn in H. destruct (rev l1); discriminate.
Qed.

Lemma head_pred : forall l a, NoDup l -> hd_error l = Some a -> pred l a = None.
Proof.
  intros [|x l] a Hn H; [discriminate|]. injection H as ->. inversion Hn; subst.
  change (a :: l) with ([] ++ a :: l). now rewrite pred_split.
Qed.

Lemma hd_rm : forall l a, NoDup l -> In a l ->
  hd_error (rm a l) = match pred l a with None => succ l a | Some _ => hd_error l end.
Proof.
  intros l a Hn Hi. destruct (nodup_split a l Hn Hi) as (l1 & l2 & -> & H1 & H2).
  rewrite rm_split, pred_split, succ_split by assumption.
  destruct l1 as [|x l1]; [reflexivity|]. cbn [rev]. destruct (rev l1); reflexivity.
Qed.

Lemma succ_cons : forall x l b, x <> b -> succ (x :: l) b = succ l b.
Proof. intros. cbn. now rewrite (proj2 (Nat.eqb_neq x b)). Qed.

Lemma pred_cons : forall x l b, NoDup (x :: l) -> In b l ->
  pred (x :: l) b = if oeqb (hd_error l) (Some b) then Some x else pred l b.
Proof.
  intros x l b Hn Hb. inversion Hn; subst.
  destruct (nodup_split b l) as (l1 & l2 & -> & H3 & H4); [assumption|assumption|].
  change (x :: l1 ++ b :: l2) with ((x :: l1) ++ b :: l2). rewrite !pred_split by assumption.
  destruct l1 as [|y l1].
  - cbn. now rewrite Nat.eqb_refl.
  - cbn [rev app hd_error oeqb]. rewrite (proj2 (Nat.eqb_neq y b)) by (intros ->; apply H3; now left).
    destruct (rev l1 ++ [y]) as [|z r] eqn:E; [destruct (rev l1); discriminate|]. reflexivity.
Qed.

Lemma pred_head : forall x l, NoDup (x :: l) -> pred (x :: l) x = None.
Proof. intros. now apply head_pred. Qed.

Lemma pred_in : forall l a b, pred l a = Some b -> In a l /\ In b l.
Proof. intros l a b H. apply succ_in in H. now rewrite <- !in_rev in H. Qed.

Lemma succ_head : forall x l, succ (x :: l) x = hd_error l.
Proof. intros. apply (succ_split x [] l). intros []. Qed.

Local Opaque pred succ rm.

(** ** Detaching and attaching, on one of the two lists *)

Lemma upd_same : forall X (f : addr -> option X) a v, upd f a v a = v.
Proof. intros. unfold upd. now rewrite Nat.eqb_refl. Qed.
Lemma upd_other : forall X (f : addr -> option X) a b v, b <> a -> upd f a v b = f b.
Proof. intros. unfold upd. now rewrite (proj2 (Nat.eqb_neq a b)) by congruence. Qed.

Definition mem (b : addr) (l : list addr) : bool := existsb (Nat.eqb b) l.
Lemma mem_in : forall b l, mem b l = true <-> In b l.
Proof.
  intros. unfold mem. rewrite existsb_exists. split.
  - intros (x & H & E). apply Nat.eqb_eq in E. now subst.
  - intros H. exists b. split; [exact H|apply Nat.eqb_refl].
Qed.
Lemma mem_not : forall b l, mem b l = false <-> ~ In b l.
Proof. intros. rewrite <- mem_in. destruct (mem b l); split; congruence. Qed.

Lemma cell_node_eta : forall d, with_node_links d (c_node_prev d) (c_node_next d) = d.
Proof. intros []; reflexivity. Qed.
Lemma cell_ctx_eta : forall d, with_ctx_links d (c_ctx_prev d) (c_ctx_next d) = d.
Proof. intros []; reflexivity. Qed.

(** what the cells of the list [l] look like *)
Definition node_linked (h : heap) (l : list addr) : Prop :=
  forall b, In b l -> exists d, h_cells h b = Some d /\ c_node_prev d = pred l b /\ c_node_next d = succ l b.
Definition ctx_linked (h : heap) (l : list addr) : Prop :=
  forall b, In b l -> exists d, h_cells h b = Some d /\ c_ctx_prev d = pred l b /\ c_ctx_next d = succ l b.

Lemma detach_node_ok : forall h a c n l, NoDup l -> In a l -> node_linked h l ->
  h_cells h a = Some c -> c_astnode c = Some n -> h_nodes h n = Some (hd_error l) ->
  exists h', detach_from_astnode h a = Some h' /\
    h_ctxs h' = h_ctxs h /\ h_live h' = h_live h /\
    (forall m, h_nodes h' m = if Nat.eqb n m then Some (hd_error (rm a l)) else h_nodes h m) /\
    h_cells h' a = Some (with_node_links (with_astnode c None) None None) /\
    (forall b, b <> a -> h_cells h' b =
       if mem b l then option_map (fun d => with_node_links d (pred (rm a l) b) (succ (rm a l) b)) (h_cells h b)
       else h_cells h b).
Proof.
  intros h a c n l Hn Ha Hl Hc Hcn Hh. unfold detach_from_astnode. rewrite Hc. cbn [obind].
  assert (Ecp : c_node_prev c = pred l a /\ c_node_next c = succ l a).
  { destruct (Hl a Ha) as (d & E & P & S). rewrite Hc in E. injection E as <-. auto. }
  destruct Ecp as [-> ->].
  assert (Hsa : succ l a <> Some a).
  { destruct (nodup_split a l Hn Ha) as (l1 & l2 & -> & H1 & H2). rewrite succ_split by assumption.
    destruct l2; cbn; [congruence|]. intros E. injection E as ->. apply H2. now left. }
  assert (Hpa : pred l a <> Some a) by (rewrite pred_succ by assumption; exact Hsa).
  (* the successor *)
  assert (E1 : exists h1, (match succ l a with
          | None => Some h
          | Some q => do d <- h_cells h q; Some (put_cell h q (Some (with_node_links d (pred l a) (c_node_next d))))
          end) = Some h1 /\ h_ctxs h1 = h_ctxs h /\ h_live h1 = h_live h /\ h_nodes h1 = h_nodes h /\
          forall b, h_cells h1 b = if oeqb (succ l a) (Some b)
             then option_map (fun d => with_node_links d (pred l a) (c_node_next d)) (h_cells h b) else h_cells h b).
  { destruct (succ l a) as [q|] eqn:Eq.
    - destruct (Hl q) as (d & E & _); [apply succ_in in Eq; tauto|]. rewrite E. cbn [obind].
      eexists; split; [reflexivity|]. cbn. repeat split. intros b. unfold upd. destruct (Nat.eqb q b) eqn:Eb; [|reflexivity].
      apply Nat.eqb_eq in Eb. subst b. rewrite E. reflexivity.
    - eexists; split; [reflexivity|]. auto. }
  destruct E1 as (h1 & -> & X1 & L1 & N1 & C1). cbn [obind].
  assert (E2 : exists h2, (match pred l a with
          | None => do n0 <- c_astnode c; do _ <- h_nodes h1 n0; Some (put_node h1 n0 (Some (succ l a)))
          | Some q => do d <- h_cells h1 q; Some (put_cell h1 q (Some (with_node_links d (c_node_prev d) (succ l a))))
          end) = Some h2 /\ h_ctxs h2 = h_ctxs h /\ h_live h2 = h_live h /\
          (forall m, h_nodes h2 m = if Nat.eqb n m then Some (hd_error (rm a l)) else h_nodes h m) /\
          forall b, h_cells h2 b = if oeqb (pred l a) (Some b)
             then option_map (fun d => with_node_links d (c_node_prev d) (succ l a)) (h_cells h1 b) else h_cells h1 b).
  { rewrite hd_rm by assumption. destruct (pred l a) as [q|] eqn:Eq.
    - destruct (Hl q) as (d & E & _); [apply pred_in in Eq; tauto|].
      assert (E' : exists d', h_cells h1 q = Some d').
      { rewrite C1, E. destruct (oeqb _ _); cbn; eauto. }
      destruct E' as [d' E']. rewrite E'. cbn [obind]. eexists; split; [reflexivity|]. cbn.
      split; [exact X1|]. split; [exact L1|]. split.
      + intros m. rewrite N1. destruct (Nat.eqb n m) eqn:Em; [|reflexivity]. apply Nat.eqb_eq in Em. now subst m.
      + intros b. unfold upd. destruct (Nat.eqb q b) eqn:Eb; [|reflexivity]. apply Nat.eqb_eq in Eb. subst b. now rewrite E'.
    - rewrite Hcn. cbn [obind]. rewrite N1, Hh. cbn [obind]. eexists; split; [reflexivity|]. cbn.
      split; [exact X1|]. split; [exact L1|]. split; [|auto]. intros m. unfold upd. destruct (Nat.eqb n m); [reflexivity|now rewrite N1]. }
  destruct E2 as (h2 & -> & X2 & L2 & N2 & C2). cbn [obind].
  assert (Ca : h_cells h2 a = Some c).
  { rewrite C2, (proj2 (oeqb_false _ _) Hpa), C1, (proj2 (oeqb_false _ _) Hsa). exact Hc. }
  rewrite Ca. cbn [obind]. eexists; split; [reflexivity|]. cbn. split; [exact X2|]. split; [exact L2|]. split; [exact N2|].
  split; [apply upd_same|]. intros b Hb. rewrite upd_other by exact Hb. rewrite C2, C1.
  destruct (mem b l) eqn:Em.
  - apply mem_in in Em. destruct (Hl b Em) as (d & Ed & P & S). rewrite Ed.
    rewrite pred_rm, succ_rm by assumption.
    assert (B1 : oeqb (pred l b) (Some a) = oeqb (succ l a) (Some b)).
    { apply eq_true_iff_eq. rewrite !oeqb_true. apply pred_succ. exact Hn. }
    assert (B2 : oeqb (succ l b) (Some a) = oeqb (pred l a) (Some b)).
    { apply eq_true_iff_eq. rewrite !oeqb_true. symmetry. apply pred_succ. exact Hn. }
    rewrite B1, B2. rewrite <- P, <- S.
    destruct (oeqb (succ l a) (Some b)), (oeqb (pred l a) (Some b)); cbn; try reflexivity.
    now rewrite cell_node_eta.
  - apply mem_not in Em.
    assert (oeqb (succ l a) (Some b) = false) as ->.
    { apply oeqb_false. intros E. apply succ_in in E. tauto. }
    assert (oeqb (pred l a) (Some b) = false) as ->.
    { apply oeqb_false. intros E. apply pred_in in E. tauto. }
    reflexivity.
Qed.

Lemma detach_ctx_ok : forall h a c n x l, NoDup l -> In a l -> ctx_linked h l ->
  h_cells h a = Some c -> c_context c = Some n -> h_ctxs h n = Some x -> x_annotations x = hd_error l ->
  exists h', detach_from_context h a = Some h' /\
    h_nodes h' = h_nodes h /\ h_live h' = h_live h /\
    (forall m, h_ctxs h' m = if Nat.eqb n m then Some (mkactx (x_handler x) (x_userdata x) (hd_error (rm a l))) else h_ctxs h m) /\
    h_cells h' a = Some (with_ctx_links (with_context c None) None None) /\
    (forall b, b <> a -> h_cells h' b =
       if mem b l then option_map (fun d => with_ctx_links d (pred (rm a l) b) (succ (rm a l) b)) (h_cells h b)
       else h_cells h b).
Proof.
  intros h a c n x l Hn Ha Hl Hc Hcn Hh Hx. unfold detach_from_context. rewrite Hc. cbn [obind].
  assert (Ecp : c_ctx_prev c = pred l a /\ c_ctx_next c = succ l a).
  { destruct (Hl a Ha) as (d & E & P & S). rewrite Hc in E. injection E as <-. auto. }
  destruct Ecp as [-> ->].
  assert (Hsa : succ l a <> Some a).
  { destruct (nodup_split a l Hn Ha) as (l1 & l2 & -> & H1 & H2). rewrite succ_split by assumption.
    destruct l2; cbn; [congruence|]. intros E. injection E as ->. apply H2. now left. }
  assert (Hpa : pred l a <> Some a) by (rewrite pred_succ by assumption; exact Hsa).
  assert (E1 : exists h1, (match succ l a with
          | None => Some h
          | Some q => do d <- h_cells h q; Some (put_cell h q (Some (with_ctx_links d (pred l a) (c_ctx_next d))))
          end) = Some h1 /\ h_nodes h1 = h_nodes h /\ h_live h1 = h_live h /\ h_ctxs h1 = h_ctxs h /\
          forall b, h_cells h1 b = if oeqb (succ l a) (Some b)
             then option_map (fun d => with_ctx_links d (pred l a) (c_ctx_next d)) (h_cells h b) else h_cells h b).
  { destruct (succ l a) as [q|] eqn:Eq.
    - destruct (Hl q) as (d & E & _); [apply succ_in in Eq; tauto|]. rewrite E. cbn [obind].
      eexists; split; [reflexivity|]. cbn. repeat split. intros b. unfold upd. destruct (Nat.eqb q b) eqn:Eb; [|reflexivity].
      apply Nat.eqb_eq in Eb. subst b. rewrite E. reflexivity.
    - eexists; split; [reflexivity|]. auto. }
  destruct E1 as (h1 & -> & X1 & L1 & N1 & C1). cbn [obind].
  assert (E2 : exists h2, (match pred l a with
          | None => do n0 <- c_context c; do x0 <- h_ctxs h1 n0; Some (put_ctx h1 n0 (Some (mkactx (x_handler x0) (x_userdata x0) (succ l a))))
          | Some q => do d <- h_cells h1 q; Some (put_cell h1 q (Some (with_ctx_links d (c_ctx_prev d) (succ l a))))
          end) = Some h2 /\ h_nodes h2 = h_nodes h /\ h_live h2 = h_live h /\
          (forall m, h_ctxs h2 m = if Nat.eqb n m then Some (mkactx (x_handler x) (x_userdata x) (hd_error (rm a l))) else h_ctxs h m) /\
          forall b, h_cells h2 b = if oeqb (pred l a) (Some b)
             then option_map (fun d => with_ctx_links d (c_ctx_prev d) (succ l a)) (h_cells h1 b) else h_cells h1 b).
  { rewrite hd_rm by assumption. destruct (pred l a) as [q|] eqn:Eq.
    - destruct (Hl q) as (d & E & _); [apply pred_in in Eq; tauto|].
      assert (E' : exists d', h_cells h1 q = Some d').
      { rewrite C1, E. destruct (oeqb _ _); cbn; eauto. }
      destruct E' as [d' E']. rewrite E'. cbn [obind]. eexists; split; [reflexivity|]. cbn.
      split; [exact X1|]. split; [exact L1|]. split.
      + intros m. rewrite N1. destruct (Nat.eqb n m) eqn:Em; [|reflexivity]. apply Nat.eqb_eq in Em. subst m. rewrite Hh, <- Hx. now destruct x.
      + intros b. unfold upd. destruct (Nat.eqb q b) eqn:Eb; [|reflexivity]. apply Nat.eqb_eq in Eb. subst b. now rewrite E'.
    - rewrite Hcn. cbn [obind]. rewrite N1, Hh. cbn [obind]. eexists; split; [reflexivity|]. cbn.
      split; [exact X1|]. split; [exact L1|]. split; [|auto]. intros m. unfold upd. destruct (Nat.eqb n m); [reflexivity|now rewrite N1]. }
  destruct E2 as (h2 & -> & X2 & L2 & N2 & C2). cbn [obind].
  assert (Ca : h_cells h2 a = Some c).
  { rewrite C2, (proj2 (oeqb_false _ _) Hpa), C1, (proj2 (oeqb_false _ _) Hsa). exact Hc. }
  rewrite Ca. cbn [obind]. eexists; split; [reflexivity|]. cbn. split; [exact X2|]. split; [exact L2|]. split; [exact N2|].
  split; [apply upd_same|]. intros b Hb. rewrite upd_other by exact Hb. rewrite C2, C1.
  destruct (mem b l) eqn:Em.
  - apply mem_in in Em. destruct (Hl b Em) as (d & Ed & P & S). rewrite Ed.
    rewrite pred_rm, succ_rm by assumption.
    assert (B1 : oeqb (pred l b) (Some a) = oeqb (succ l a) (Some b)).
    { apply eq_true_iff_eq. rewrite !oeqb_true. apply pred_succ. exact Hn. }
    assert (B2 : oeqb (succ l b) (Some a) = oeqb (pred l a) (Some b)).
    { apply eq_true_iff_eq. rewrite !oeqb_true. symmetry. apply pred_succ. exact Hn. }
    rewrite B1, B2. rewrite <- P, <- S.
    destruct (oeqb (succ l a) (Some b)), (oeqb (pred l a) (Some b)); cbn; try reflexivity.
    now rewrite cell_ctx_eta.
  - apply mem_not in Em.
    assert (oeqb (succ l a) (Some b) = false) as ->.
    { apply oeqb_false. intros E. apply succ_in in E. tauto. }
    assert (oeqb (pred l a) (Some b) = false) as ->.
    { apply oeqb_false. intros E. apply pred_in in E. tauto. }
    reflexivity.
Qed.

Lemma attach_node_ok : forall h a c n l, NoDup l -> ~ In a l -> node_linked h l ->
  h_cells h a = Some c -> c_node_prev c = None -> h_nodes h n = Some (hd_error l) ->
  exists h', attach_to_astnode h n a = Some h' /\
    h_ctxs h' = h_ctxs h /\ h_live h' = h_live h /\
    (forall m, h_nodes h' m = if Nat.eqb n m then Some (Some a) else h_nodes h m) /\
    h_cells h' a = Some (with_node_links (with_astnode c (Some n)) None (hd_error l)) /\
    (forall b, b <> a -> h_cells h' b =
       if mem b l then option_map (fun d => with_node_links d (pred (a :: l) b) (succ (a :: l) b)) (h_cells h b)
       else h_cells h b).
Proof.
  intros h a c n l Hn Ha Hl Hc Hp Hh. unfold attach_to_astnode. rewrite Hc. cbn [obind]. rewrite Hh. cbn [obind].
  rewrite Hp. set (h0 := put_cell h a _).
  assert (Hha : hd_error l <> Some a) by (destruct l; cbn; [congruence|]; intros E; injection E as ->; apply Ha; now left).
  assert (E1 : exists h1, (match hd_error l with
          | None => Some h0
          | Some q => do d <- h_cells h0 q; Some (put_cell h0 q (Some (with_node_links d (Some a) (c_node_next d))))
          end) = Some h1 /\ h_ctxs h1 = h_ctxs h /\ h_live h1 = h_live h /\ h_nodes h1 = h_nodes h /\
          forall b, h_cells h1 b = if oeqb (hd_error l) (Some b)
             then option_map (fun d => with_node_links d (Some a) (c_node_next d)) (h_cells h0 b) else h_cells h0 b).
  { destruct (hd_error l) as [q|] eqn:Eq.
    - destruct (Hl q) as (d & E & _); [destruct l; [discriminate|]; injection Eq as ->; now left|].
      assert (Hqa : q <> a) by congruence.
      assert (E0 : h_cells h0 q = Some d) by (unfold h0; cbn; rewrite upd_other by exact Hqa; exact E).
      rewrite E0. cbn [obind]. eexists; split; [reflexivity|]. cbn. repeat split.
      intros b. unfold upd at 1. destruct (Nat.eqb q b) eqn:Eb; [|reflexivity].
      apply Nat.eqb_eq in Eb. subst b. cbn in E0. rewrite E0. reflexivity.
    - eexists; split; [reflexivity|]. auto. }
  destruct E1 as (h1 & -> & X1 & L1 & N1 & C1). cbn [obind]. eexists; split; [reflexivity|]. cbn.
  split; [exact X1|]. split; [exact L1|]. split.
  { intros m. unfold upd. destruct (Nat.eqb n m); [reflexivity|]. now rewrite N1. }
  split.
  - rewrite C1, (proj2 (oeqb_false _ _) Hha). unfold h0. cbn. now rewrite upd_same.
  - intros b Hb. rewrite C1. assert (C0 : h_cells h0 b = h_cells h b) by (unfold h0; cbn; now rewrite upd_other). rewrite C0.
    destruct (mem b l) eqn:Em.
    + apply mem_in in Em. destruct (Hl b Em) as (d & Ed & P & S). rewrite Ed.
      assert (Hn2 : NoDup (a :: l)) by (constructor; assumption).
      rewrite pred_cons by assumption. rewrite succ_cons by congruence. rewrite <- P, <- S.
      destruct (oeqb (hd_error l) (Some b)); cbn; [reflexivity|now rewrite cell_node_eta].
    + apply mem_not in Em.
      assert (oeqb (hd_error l) (Some b) = false) as ->.
      { apply oeqb_false. destruct l; cbn; [congruence|]. intros E. injection E as ->. apply Em. now left. }
      reflexivity.
Qed.

Lemma attach_ctx_ok : forall h a c n x l, NoDup l -> ~ In a l -> ctx_linked h l ->
  h_cells h a = Some c -> c_ctx_prev c = None -> h_ctxs h n = Some x -> x_annotations x = hd_error l ->
  exists h', attach_to_context h n a = Some h' /\
    h_nodes h' = h_nodes h /\ h_live h' = h_live h /\
    (forall m, h_ctxs h' m = if Nat.eqb n m then Some (mkactx (x_handler x) (x_userdata x) (Some a)) else h_ctxs h m) /\
    h_cells h' a = Some (with_ctx_links (with_context c (Some n)) None (hd_error l)) /\
    (forall b, b <> a -> h_cells h' b =
       if mem b l then option_map (fun d => with_ctx_links d (pred (a :: l) b) (succ (a :: l) b)) (h_cells h b)
       else h_cells h b).
Proof.
  intros h a c n x l Hn Ha Hl Hc Hp Hh Hx. unfold attach_to_context. rewrite Hc. cbn [obind]. rewrite Hh. cbn [obind].
  rewrite Hp, Hx. set (h0 := put_cell h a _).
  assert (Hha : hd_error l <> Some a) by (destruct l; cbn; [congruence|]; intros E; injection E as ->; apply Ha; now left).
  assert (E1 : exists h1, (match hd_error l with
          | None => Some h0
          | Some q => do d <- h_cells h0 q; Some (put_cell h0 q (Some (with_ctx_links d (Some a) (c_ctx_next d))))
          end) = Some h1 /\ h_nodes h1 = h_nodes h /\ h_live h1 = h_live h /\ h_ctxs h1 = h_ctxs h /\
          forall b, h_cells h1 b = if oeqb (hd_error l) (Some b)
             then option_map (fun d => with_ctx_links d (Some a) (c_ctx_next d)) (h_cells h0 b) else h_cells h0 b).
  { destruct (hd_error l) as [q|] eqn:Eq.
    - destruct (Hl q) as (d & E & _); [destruct l; [discriminate|]; injection Eq as ->; now left|].
      assert (Hqa : q <> a) by congruence.
      assert (E0 : h_cells h0 q = Some d) by (unfold h0; cbn; rewrite upd_other by exact Hqa; exact E).
      rewrite E0. cbn [obind]. eexists; split; [reflexivity|]. cbn. repeat split.
      intros b. unfold upd at 1. destruct (Nat.eqb q b) eqn:Eb; [|reflexivity].
      apply Nat.eqb_eq in Eb. subst b. cbn in E0. rewrite E0. reflexivity.
    - eexists; split; [reflexivity|]. auto. }
  destruct E1 as (h1 & -> & X1 & L1 & N1 & C1). cbn [obind]. eexists; split; [reflexivity|]. cbn.
  split; [exact X1|]. split; [exact L1|]. split.
  { intros m. unfold upd. destruct (Nat.eqb n m); [reflexivity|]. now rewrite N1. }
  split.
  - rewrite C1, (proj2 (oeqb_false _ _) Hha). unfold h0. cbn. now rewrite upd_same.
  - intros b Hb. rewrite C1. assert (C0 : h_cells h0 b = h_cells h b) by (unfold h0; cbn; now rewrite upd_other). rewrite C0.
    destruct (mem b l) eqn:Em.
    + apply mem_in in Em. destruct (Hl b Em) as (d & Ed & P & S). rewrite Ed.
      assert (Hn2 : NoDup (a :: l)) by (constructor; assumption).
      rewrite pred_cons by assumption. rewrite succ_cons by congruence. rewrite <- P, <- S.
      destruct (oeqb (hd_error l) (Some b)); cbn; [reflexivity|now rewrite cell_ctx_eta].
    + apply mem_not in Em.
      assert (oeqb (hd_error l) (Some b) = false) as ->.
      { apply oeqb_false. destruct l; cbn; [congruence|]. intros E. injection E as ->. apply Em. now left. }
      reflexivity.
Qed.

(** ** The representation *)

Notation rent := (addr * entry)%type.
Definition on_node (n : addr) (p : rent) : bool := Nat.eqb (en_node (snd p)) n.
Definition on_ctx (c : addr) (p : rent) : bool := Nat.eqb (en_ctx (snd p)) c.
Definition nlist (E : list rent) (n : addr) : list addr := map fst (filter (on_node n) E).
Definition clist (E : list rent) (c : addr) : list addr := map fst (filter (on_ctx c) E).
Definition drop (a : addr) (E : list rent) : list rent := filter (fun p : rent => negb (Nat.eqb a (fst p))) E.

Definition cell_of (E : list rent) (a : addr) (e : entry) : cell :=
  mkcell (Some (en_ctx e)) (Some (en_node e)) (en_data e)
    (pred (nlist E (en_node e)) a) (succ (nlist E (en_node e)) a)
    (pred (clist E (en_ctx e)) a) (succ (clist E (en_ctx e)) a).

Record rep (h : heap) (w : world) (E : list rent) : Prop := {
  rp_entries : w_entries w = map snd E;
  rp_nodup : NoDup (map fst E);
  rp_pairs : NoDup (map (fun p => (en_ctx (snd p), en_node (snd p))) E);
  rp_live : h_live h = length E;
  rp_ctxs : forall c, h_ctxs h c =
     match w_ctxs w c with None => None | Some (f, u) => Some (mkactx f u (hd_error (clist E c))) end;
  rp_nodes : forall n, h_nodes h n = if w_nodes w n then Some (hd_error (nlist E n)) else None;
  rp_used : forall a e, In (a, e) E -> w_ctxs w (en_ctx e) <> None /\ w_nodes w (en_node e) = true;
  rp_cells : forall a e, In (a, e) E -> h_cells h a = Some (cell_of E a e);
  rp_free : forall a, ~ In a (map fst E) -> h_cells h a = None }.

Lemma nodup_filter_fst : forall (f : rent -> bool) E, NoDup (map fst E) -> NoDup (map fst (filter f E)).
Proof.
  induction E as [|p E IH]; intros H; [constructor|]. inversion H; subst. cbn. destruct (f p); [|auto].
  cbn. constructor; [|auto]. intros Hi. apply H2. apply in_map_iff in Hi. destruct Hi as (q & E1 & Hq).
  apply filter_In in Hq. apply in_map_iff. exists q. tauto.
Qed.

Lemma filter_len : forall (f : rent -> bool) E, length (filter f E) <= length E.
Proof. induction E as [|p E IH]; cbn; [lia|]. destruct (f p); cbn; lia. Qed.

Lemma same_entry : forall (E : list rent) a e e', NoDup (map fst E) -> In (a, e) E -> In (a, e') E -> e = e'.
Proof.
  induction E as [|[b f] E IH]; intros a e e' Hn H1 H2; [destruct H1|]. inversion Hn; subst.
  destruct H1 as [H1|H1], H2 as [H2|H2].
  - congruence.
  - injection H1 as -> ->. exfalso. apply H3. apply in_map_iff. exists (a, e'). auto.
  - injection H2 as -> ->. exfalso. apply H3. apply in_map_iff. exists (a, e). auto.
  - eapply IH; eauto.
Qed.

Lemma in_nlist : forall E n b, In b (nlist E n) <-> exists e, In (b, e) E /\ en_node e = n.
Proof.
  intros. unfold nlist. rewrite in_map_iff. split.
  - intros ([b' e] & <- & H). apply filter_In in H. unfold on_node in H. cbn in H. rewrite Nat.eqb_eq in H. exists e. tauto.
  - intros (e & H & <-). exists (b, e). split; [reflexivity|]. apply filter_In. split; [exact H|]. apply Nat.eqb_refl.
Qed.
Lemma in_clist : forall E n b, In b (clist E n) <-> exists e, In (b, e) E /\ en_ctx e = n.
Proof.
  intros. unfold clist. rewrite in_map_iff. split.
  - intros ([b' e] & <- & H). apply filter_In in H. unfold on_ctx in H. cbn in H. rewrite Nat.eqb_eq in H. exists e. tauto.
  - intros (e & H & <-). exists (b, e). split; [reflexivity|]. apply filter_In. split; [exact H|]. apply Nat.eqb_refl.
Qed.

Local Transparent rm.
Lemma drop_filter : forall (f : rent -> bool) a E, map fst (filter f (drop a E)) = rm a (map fst (filter f E)).
Proof.
  induction E as [|p E IH]; [reflexivity|]. cbn [drop filter map]. unfold drop in IH.
  destruct (Nat.eqb a (fst p)) eqn:Ea; cbn [negb].
  - destruct (f p); [|exact IH]. cbn [map rm filter]. rewrite Ea. cbn [negb]. exact IH.
  - cbn [filter]. destruct (f p); [|exact IH]. cbn [map rm filter]. rewrite Ea. cbn [negb]. f_equal. exact IH.
Qed.
Local Opaque rm.

Lemma in_drop : forall a E p, In p (drop a E) <-> In p E /\ fst p <> a.
Proof.
  intros. unfold drop. rewrite filter_In, negb_true_iff, Nat.eqb_neq. intuition.
Qed.

Lemma drop_not_in : forall a E, ~ In a (map fst E) -> drop a E = E.
Proof.
  induction E as [|p E IH]; intros H; [reflexivity|]. cbn in *.
  rewrite (proj2 (Nat.eqb_neq a (fst p))) by intuition. cbn. f_equal. apply IH. intuition.
Qed.

Lemma drop_cons : forall a p E, drop a (p :: E) = if Nat.eqb a (fst p) then drop a E else p :: drop a E.
Proof. intros. unfold drop. cbn [filter]. destruct (Nat.eqb a (fst p)); reflexivity. Qed.

Lemma drop_len : forall a e E, NoDup (map fst E) -> In (a, e) E -> length (drop a E) = length E - 1.
Proof.
  intros a e E. induction E as [|p E IH]; intros Hn Hi; [destruct Hi|]. inversion Hn; subst. rewrite drop_cons.
  destruct Hi as [->|Hi].
  - cbn [fst] in *. rewrite Nat.eqb_refl, drop_not_in by assumption. cbn [length]. rewrite Nat.sub_succ, Nat.sub_0_r. reflexivity.
  - rewrite (proj2 (Nat.eqb_neq a (fst p))).
    + cbn [length]. rewrite IH by assumption. destruct E as [|q E]; [destruct Hi|]. cbn [length]. rewrite !Nat.sub_succ, !Nat.sub_0_r. reflexivity.
    + intros ->. apply H1. apply in_map_iff. exists (fst p, e). auto.
Qed.

Lemma nodup_map_filter : forall X Y (g : X -> Y) (f : X -> bool) l, NoDup (map g l) -> NoDup (map g (filter f l)).
Proof.
  induction l as [|x l IH]; intros H; [constructor|]. inversion H; subst. cbn. destruct (f x); [|auto].
  cbn. constructor; [|auto]. rewrite in_map_iff. intros (y & E & Hy). apply H2. apply filter_In in Hy.
  rewrite in_map_iff. exists y. tauto.
Qed.

Section Rep.
Variables (h : heap) (w : world) (E : list rent).
Hypothesis R : rep h w E.

Lemma rep_node_linked : forall n, node_linked h (nlist E n).
Proof.
  intros n b Hb. apply in_nlist in Hb. destruct Hb as (e & Hi & <-).
  exists (cell_of E b e). split; [now apply (rp_cells _ _ _ R)|]. split; reflexivity.
Qed.
Lemma rep_ctx_linked : forall n, ctx_linked h (clist E n).
Proof.
  intros n b Hb. apply in_clist in Hb. destruct Hb as (e & Hi & <-).
  exists (cell_of E b e). split; [now apply (rp_cells _ _ _ R)|]. split; reflexivity.
Qed.

Lemma detach_both : forall a e, In (a, e) E ->
  exists h1 h2 c, detach_from_astnode h a = Some h1 /\ detach_from_context h1 a = Some h2 /\
    h_cells h2 a = Some c /\ c_astnode c = None /\ c_data c = en_data e /\
    (exists f u l, w_ctxs w (en_ctx e) = Some (f, u) /\ h_ctxs h2 (en_ctx e) = Some (mkactx f u l)) /\
    rep (put_live (put_cell h2 a None) (h_live h2 - 1)) (with_entries w (map snd (drop a E))) (drop a E).
Proof.
  intros a e Hi. destruct R as [R1 R2 R3 R4 R5 R6 R7 R8 R9].
  destruct (R7 a e Hi) as [U1 U2]. pose proof (R8 a e Hi) as Hc.
  assert (Nn : NoDup (nlist E (en_node e))) by now apply nodup_filter_fst.
  assert (Nc : NoDup (clist E (en_ctx e))) by now apply nodup_filter_fst.
  assert (In1 : In a (nlist E (en_node e))) by (apply in_nlist; eauto).
  assert (In2 : In a (clist E (en_ctx e))) by (apply in_clist; eauto).
  assert (Hnode : h_nodes h (en_node e) = Some (hd_error (nlist E (en_node e)))) by now rewrite R6, U2.
  destruct (detach_node_ok h a (cell_of E a e) (en_node e) (nlist E (en_node e)) Nn In1 (rep_node_linked _) Hc eq_refl Hnode)
    as (h1 & D1 & X1 & L1 & N1 & Ca1 & C1).
  destruct (w_ctxs w (en_ctx e)) as [[f u]|] eqn:Ew; [|congruence].
  assert (Hctx : h_ctxs h1 (en_ctx e) = Some (mkactx f u (hd_error (clist E (en_ctx e))))) by now rewrite X1, R5, Ew.
  assert (Lk : ctx_linked h1 (clist E (en_ctx e))).
  { intros b Hb. destruct (rep_ctx_linked (en_ctx e) b Hb) as (d & Ed & P & S).
    destruct (Nat.eq_dec b a) as [->|Hba].
    - rewrite Hc in Ed. injection Ed as <-. exists (with_node_links (with_astnode (cell_of E a e) None) None None). auto.
    - rewrite C1 by exact Hba. rewrite Ed. destruct (mem b (nlist E (en_node e))); cbn [option_map]; eauto. }
  destruct (detach_ctx_ok h1 a _ (en_ctx e) _ (clist E (en_ctx e)) Nc In2 Lk Ca1 eq_refl Hctx eq_refl)
    as (h2 & D2 & N2 & L2 & X2 & Ca2 & C2).
  exists h1, h2. eexists. split; [exact D1|]. split; [exact D2|]. split; [exact Ca2|]. split; [reflexivity|]. split; [reflexivity|].
  split.
  { exists f, u. eexists. split; [reflexivity|]. rewrite X2, Nat.eqb_refl. reflexivity. }
  constructor.
  - reflexivity.
  - now apply nodup_filter_fst.
  - now apply nodup_map_filter.
  - cbn. rewrite L2, L1, R4. symmetry. now apply drop_len with (e := e).
  - intros c. cbn. rewrite X2, X1. unfold clist. rewrite drop_filter. fold (clist E c).
    destruct (Nat.eqb (en_ctx e) c) eqn:Ec.
    + apply Nat.eqb_eq in Ec. subst c. now rewrite Ew.
    + apply Nat.eqb_neq in Ec. rewrite R5. destruct (w_ctxs w c) as [[f' u']|]; [|reflexivity].
      rewrite rm_not_in; [reflexivity|]. intros Hb. apply in_clist in Hb. destruct Hb as (e' & Hi' & <-).
      apply Ec. now rewrite (same_entry E a e e' R2 Hi Hi').
  - intros n. cbn. rewrite N2, N1. unfold nlist. rewrite drop_filter. fold (nlist E n).
    destruct (Nat.eqb (en_node e) n) eqn:Ec.
    + apply Nat.eqb_eq in Ec. subst n. now rewrite U2.
    + apply Nat.eqb_neq in Ec. rewrite R6. destruct (w_nodes w n); [|reflexivity].
      rewrite rm_not_in; [reflexivity|]. intros Hb. apply in_nlist in Hb. destruct Hb as (e' & Hi' & <-).
      apply Ec. now rewrite (same_entry E a e e' R2 Hi Hi').
  - intros b e' Hb. apply in_drop in Hb. now apply (R7 b).
  - intros b e' Hb. apply in_drop in Hb. destruct Hb as [Hb Hba]. cbn in Hba.
    cbn. rewrite upd_other by exact Hba. rewrite C2, C1, (R8 b e' Hb) by exact Hba.
    unfold cell_of, nlist, clist. rewrite !drop_filter.
    fold (nlist E (en_node e)) (nlist E (en_node e')) (clist E (en_ctx e)) (clist E (en_ctx e')).
    assert (M1 : mem b (nlist E (en_node e)) = Nat.eqb (en_node e) (en_node e')).
    { apply eq_true_iff_eq. rewrite mem_in, in_nlist, Nat.eqb_eq. split.
      - intros (e2 & H2 & <-). now rewrite (same_entry E b e' e2 R2 Hb H2).
      - intros ->. eauto. }
    assert (M2 : mem b (clist E (en_ctx e)) = Nat.eqb (en_ctx e) (en_ctx e')).
    { apply eq_true_iff_eq. rewrite mem_in, in_clist, Nat.eqb_eq. split.
      - intros (e2 & H2 & <-). now rewrite (same_entry E b e' e2 R2 Hb H2).
      - intros ->. eauto. }
    rewrite M1, M2.
    assert (Q1 : en_node e <> en_node e' -> rm a (nlist E (en_node e')) = nlist E (en_node e')).
    { intros Hne. apply rm_not_in. intros Ha. apply in_nlist in Ha. destruct Ha as (e2 & H2 & E2).
      rewrite <- (same_entry E a e e2 R2 Hi H2) in E2. congruence. }
    assert (Q2 : en_ctx e <> en_ctx e' -> rm a (clist E (en_ctx e')) = clist E (en_ctx e')).
    { intros Hne. apply rm_not_in. intros Ha. apply in_clist in Ha. destruct Ha as (e2 & H2 & E2).
      rewrite <- (same_entry E a e e2 R2 Hi H2) in E2. congruence. }
    destruct (Nat.eqb (en_node e) (en_node e')) eqn:K1, (Nat.eqb (en_ctx e) (en_ctx e')) eqn:K2;
      rewrite ?Nat.eqb_eq, ?Nat.eqb_neq in *; rewrite ?K1, ?K2, ?Q1, ?Q2 by assumption; reflexivity.
  - intros b Hb. cbn. unfold upd. destruct (Nat.eqb a b) eqn:Eab; [reflexivity|]. apply Nat.eqb_neq in Eab.
    assert (Hb' : ~ In b (map fst E)).
    { intros H. apply Hb. apply in_map_iff in H. destruct H as ([b' e'] & Ebe & H). cbn in Ebe. subst b'.
      apply in_map_iff. exists (b, e'). split; [reflexivity|]. apply in_drop. cbn. auto. }
    assert (Hno : forall n, mem b (nlist E n) = false /\ mem b (clist E n) = false).
    { intros n. rewrite !mem_not. split; intros H.
      - apply in_nlist in H. destruct H as (e' & H & _). apply Hb'. apply in_map_iff. exists (b, e'). auto.
      - apply in_clist in H. destruct H as (e' & H & _). apply Hb'. apply in_map_iff. exists (b, e'). auto. }
    rewrite C2, (proj2 (Hno _)), C1, (proj1 (Hno _)) by congruence. now apply R9.
Qed.

Lemma release_ok : forall a e, In (a, e) E ->
  exists h', release_annotation h a = Some (h', handler_call false w e) /\
    rep h' (with_entries w (map snd (drop a E))) (drop a E).
Proof.
  intros a e Hi. destruct (detach_both a e Hi) as (h1 & h2 & c & D1 & D2 & Hc & Ha & Hd & (f & u & l & Hw & Hx) & HR).
  unfold release_annotation. rewrite (rp_cells _ _ _ R a e Hi). cbn [obind cell_of c_context].
  rewrite D1. cbn [obind]. rewrite D2. cbn [obind]. rewrite Hx. cbn [obind]. rewrite Hc. cbn [obind x_handler x_userdata].
  eexists. split; [|exact HR]. f_equal. f_equal. unfold handler_call. rewrite Hw, Ha, Hd. destruct f; reflexivity.
Qed.

Lemma find_walk : forall n ctx E2 E1 fuel, filter (on_node n) E = E1 ++ E2 -> length E2 <= fuel ->
  find_from fuel h ctx (hd_error (map fst E2)) = Some (option_map fst (find (on_ctx ctx) E2)).
Proof.
  induction E2 as [|[a e] E2 IH]; intros E1 fuel He Hf; [destruct fuel; reflexivity|].
  assert (Hi : In (a, e) (filter (on_node n) E)) by (rewrite He; apply in_or_app; right; now left).
  apply filter_In in Hi. destruct Hi as [Hi Hn]. unfold on_node in Hn. cbn in Hn. apply Nat.eqb_eq in Hn.
  destruct fuel as [|fuel]; [cbn in Hf; lia|]. cbn [map hd_error fst find_from].
  rewrite (rp_cells _ _ _ R a e Hi). cbn [obind cell_of c_context oeqb c_node_next find].
  unfold on_ctx at 1. cbn [snd]. destruct (Nat.eqb (en_ctx e) ctx) eqn:Ec; [reflexivity|].
  rewrite Hn. unfold nlist. rewrite He, map_app. cbn [map fst].
  pose proof (nodup_filter_fst (on_node n) E (rp_nodup _ _ _ R)) as Hnd. rewrite He, map_app in Hnd. cbn [map fst] in Hnd.
  apply NoDup_remove_2 in Hnd. rewrite in_app_iff in Hnd. rewrite succ_split by tauto.
  apply (IH (E1 ++ [(a, e)])); [|cbn in Hf; lia]. now rewrite <- app_assoc.
Qed.

Lemma find_filter : forall X (f g : X -> bool) l, find f (filter g l) = find (fun x => f x && g x) l.
Proof.
  induction l as [|x l IH]; [reflexivity|]. cbn. destruct (g x); cbn.
  - destruct (f x); [reflexivity|exact IH].
  - rewrite andb_false_r. exact IH.
Qed.

Lemma find_map_snd : forall (f : entry -> bool) (l : list rent),
  find f (map snd l) = option_map snd (find (fun p => f (snd p)) l).
Proof. induction l as [|x l IH]; [reflexivity|]. cbn. destruct (f (snd x)); [reflexivity|exact IH]. Qed.

Lemma find_ok : forall ctx n, w_nodes w n = true ->
  exists r, find_annotation h ctx n = Some (option_map fst r) /\ attached w ctx n = option_map (fun p => en_data (snd p)) r /\
    (forall a e, r = Some (a, e) -> In (a, e) E /\ en_ctx e = ctx /\ en_node e = n) /\
    (r = None -> forall a e, In (a, e) E -> is_at ctx n e = false).
Proof.
  intros ctx n Hn. unfold find_annotation. rewrite (rp_nodes _ _ _ R), Hn. cbn [obind]. unfold nlist.
  rewrite (find_walk n ctx (filter (on_node n) E) [] (h_live h) eq_refl) by (rewrite (rp_live _ _ _ R); apply filter_len).
  rewrite find_filter. change (fun x => on_ctx ctx x && on_node n x) with (fun p : rent => is_at ctx n (snd p)).
  eexists. split; [reflexivity|]. unfold attached. rewrite (rp_entries _ _ _ R), find_map_snd. split; [|split].
  - match goal with |- _ = option_map _ ?r => destruct r; reflexivity end.
  - intros a e H. apply find_some in H. destruct H as [H1 H2]. split; [exact H1|]. unfold is_at in H2. cbn in H2.
    apply andb_true_iff in H2. now rewrite !Nat.eqb_eq in H2.
  - intros H a e Hi. apply (find_none _ _ H (a, e) Hi).
Qed.

End Rep.

(** ** Releasing all of a context or node *)

Definition dropall (sel : entry -> bool) (E : list rent) : list rent := filter (fun p : rent => negb (sel (snd p))) E.
Definition keepall (sel : entry -> bool) (E : list rent) : list rent := filter (fun p : rent => sel (snd p)) E.

Lemma drop_keep : forall sel a e F E, NoDup (map fst E) -> keepall sel E = (a, e) :: F ->
  keepall sel (drop a E) = F /\ dropall sel (drop a E) = dropall sel E /\ In (a, e) E.
Proof.
  intros sel a e F E. induction E as [|[b f] E IH]; intros Hn Hk; [discriminate|]. inversion Hn; subst. rewrite drop_cons.
  cbn [keepall filter snd fst] in *. destruct (sel f) eqn:Ef.
  - injection Hk as -> -> <-. cbn [fst]. rewrite Nat.eqb_refl, drop_not_in by assumption.
    split; [reflexivity|]. split; [|now left]. unfold dropall. cbn [filter snd]. now rewrite Ef.
  - destruct (IH H2 Hk) as (I1 & I2 & I3).
    assert (a <> b). { intros ->. apply H1. apply in_map_iff. exists (b, e). auto. }
    cbn [fst]. rewrite (proj2 (Nat.eqb_neq a b)) by assumption. unfold keepall, dropall in *. cbn [filter snd]. rewrite Ef. cbn [negb].
    split; [exact I1|]. split; [f_equal; exact I2|now right].
Qed.

Lemma release_all_ok : forall sel head fuel h w E,
  (forall h w' E, rep h w' E -> w_ctxs w' = w_ctxs w -> w_nodes w' = w_nodes w ->
     head h = Some (hd_error (map fst (keepall sel E)))) ->
  rep h w E -> length (keepall sel E) <= fuel ->
  exists h', release_all fuel head h = Some (h', flat_map (handler_call false w) (map snd (keepall sel E))) /\
    rep h' (with_entries w (map snd (dropall sel E))) (dropall sel E).
Proof.
  intros sel head fuel. induction fuel as [|fuel IH]; intros h w E Hh R Hf.
  - destruct (keepall sel E) as [|p F] eqn:Ek; [|cbn in Hf; lia].
    cbn [release_all]. rewrite (Hh h w E R eq_refl eq_refl), Ek. cbn [map hd_error obind flat_map].
    exists h. split; [reflexivity|].
    assert (Ed : dropall sel E = E).
    { clear -Ek. induction E as [|p E IH]; [reflexivity|]. cbn [keepall dropall filter] in *. destruct (sel (snd p)); [discriminate|].
      cbn [negb]. f_equal. apply IH. exact Ek. }
    rewrite Ed, <- (rp_entries _ _ _ R). destruct w; exact R.
  - cbn [release_all]. rewrite (Hh h w E R eq_refl eq_refl). cbn [obind].
    destruct (keepall sel E) as [|[a e] F] eqn:Ek; cbn [map hd_error fst snd flat_map].
    + exists h. split; [reflexivity|].
      assert (Ed : dropall sel E = E).
      { clear -Ek. induction E as [|p E IH]; [reflexivity|]. cbn [keepall dropall filter] in *. destruct (sel (snd p)); [discriminate|].
        cbn [negb]. f_equal. apply IH. exact Ek. }
      rewrite Ed, <- (rp_entries _ _ _ R). destruct w; exact R.
    + destruct (drop_keep sel a e F E (rp_nodup _ _ _ R) Ek) as (K1 & K2 & K3).
      destruct (release_ok h w E R a e K3) as (h1 & -> & R1). cbn [obind].
      destruct (IH h1 (with_entries w (map snd (drop a E))) (drop a E) Hh R1) as (h2 & E2 & R2); [rewrite K1; cbn in Hf; lia|].
      rewrite E2. cbn [obind]. rewrite K1, K2 in *. eexists. split; [|exact R2]. f_equal.
Qed.

(** ** The operations *)

Lemma upd_put : forall X (f : addr -> option X) a v b, upd f a v b = if Nat.eqb a b then v else f b.
Proof. reflexivity. Qed.

Lemma map_keepall : forall sel E, map snd (keepall sel E) = filter sel (map snd E).
Proof.
  induction E as [|p E IH]; [reflexivity|]. cbn [keepall filter map]. unfold keepall in IH. destruct (sel (snd p)); cbn; now rewrite IH.
Qed.
Lemma map_dropall : forall sel E, map snd (dropall sel E) = filter (fun e => negb (sel e)) (map snd E).
Proof. intros. apply (map_keepall (fun e => negb (sel e))). Qed.

Lemma retag_list : forall c n d E (f : addr * addr -> bool),
  map fst (filter (fun p : rent => f (en_ctx (snd p), en_node (snd p))) (map (fun p => (fst p, set_data c n d (snd p))) E)) =
  map fst (filter (fun p : rent => f (en_ctx (snd p), en_node (snd p))) E).
Proof.
  intros. assert (K : forall e, en_ctx (set_data c n d e) = en_ctx e /\ en_node (set_data c n d e) = en_node e).
  { intros e. unfold set_data, is_at. destruct (Nat.eqb (en_ctx e) c) eqn:E1, (Nat.eqb (en_node e) n) eqn:E2; cbn; auto.
    apply Nat.eqb_eq in E1, E2. auto. }
  induction E as [|p E IH]; [reflexivity|]. cbn [map filter fst snd]. destruct (K (snd p)) as [-> ->].
  destruct (f _); cbn; now rewrite IH.
Qed.

Lemma set_data_at : forall c n d e, en_ctx (set_data c n d e) = en_ctx e /\ en_node (set_data c n d e) = en_node e.
Proof.
  intros. unfold set_data, is_at. destruct (Nat.eqb (en_ctx e) c) eqn:E1, (Nat.eqb (en_node e) n) eqn:E2; cbn; auto.
  apply Nat.eqb_eq in E1, E2. auto.
Qed.

Lemma rep_retag : forall h w E c n d a e, rep h w E -> In (a, e) E -> en_ctx e = c -> en_node e = n ->
  rep (put_cell h a (Some (with_data (cell_of E a e) d))) (with_entries w (map (set_data c n d) (w_entries w)))
      (map (fun p => (fst p, set_data c n d (snd p))) E).
Proof.
  intros h w E c n d a e R Hi Hc Hn. destruct R as [R1 R2 R3 R4 R5 R6 R7 R8 R9].
  set (E' := map (fun p => (fst p, set_data c n d (snd p))) E).
  assert (Ef : map fst E' = map fst E) by (unfold E'; rewrite map_map; reflexivity).
  assert (En : forall m, nlist E' m = nlist E m) by (intros m; apply (retag_list c n d E (fun q => Nat.eqb (snd q) m))).
  assert (Ec : forall m, clist E' m = clist E m) by (intros m; apply (retag_list c n d E (fun q => Nat.eqb (fst q) m))).
  assert (Hin : forall b e', In (b, e') E' <-> exists e0, In (b, e0) E /\ e' = set_data c n d e0).
  { intros b e'. unfold E'. rewrite in_map_iff. split.
    - intros ([b0 e0] & Eq & H). cbn in Eq. injection Eq as -> <-. eauto.
    - intros (e0 & H & ->). exists (b, e0). auto. }
  constructor.
  - cbn. rewrite R1. unfold E'. now rewrite !map_map.
  - now rewrite Ef.
  - unfold E'. rewrite map_map. cbn.
    erewrite map_ext; [exact R3|]. intros [b f]. cbn. destruct (set_data_at c n d f) as [-> ->]. reflexivity.
  - cbn. unfold E'. now rewrite map_length.
  - intros x. cbn. now rewrite R5, Ec.
  - intros x. cbn. now rewrite R6, En.
  - intros b e' Hb. apply Hin in Hb. destruct Hb as (e0 & Hb & ->). destruct (set_data_at c n d e0) as [-> ->]. cbn. eauto.
  - intros b e' Hb. apply Hin in Hb. destruct Hb as (e0 & Hb & ->). cbn. unfold upd.
    unfold cell_of. rewrite En, Ec. destruct (set_data_at c n d e0) as [-> ->].
    destruct (Nat.eqb a b) eqn:Eab.
    + apply Nat.eqb_eq in Eab. subst b. rewrite <- (same_entry E a e e0 R2 Hi Hb). unfold set_data, is_at.
      rewrite Hc, Hn, !Nat.eqb_refl. cbn. reflexivity.
    + apply Nat.eqb_neq in Eab. rewrite (R8 b e0 Hb). unfold cell_of. f_equal. f_equal.
      unfold set_data. destruct (is_at c n e0) eqn:Ea; [|reflexivity]. exfalso.
      unfold is_at in Ea. apply andb_true_iff in Ea. rewrite !Nat.eqb_eq in Ea. destruct Ea as [A1 A2].
      assert (Hp : (a, e) = (b, e0)); [|congruence].
      clear -R3 Hi Hb Hc Hn A1 A2. induction E as [|p E IH]; [destruct Hi|]. inversion R3; subst.
      destruct Hi as [->|Hi], Hb as [->|Hb]; auto.
      * exfalso. apply H1. apply in_map_iff. exists (b, e0). cbn. split; [congruence|exact Hb].
      * exfalso. apply H1. apply in_map_iff. exists (a, e). cbn. split; [congruence|exact Hi].
  - intros b Hb. rewrite Ef in Hb. cbn. rewrite upd_other; [now apply R9|]. intros ->. apply Hb. apply in_map_iff. exists (a, e). auto.
Qed.

Lemma rep_attach : forall h w E c n d a, rep h w E -> w_ctxs w c <> None -> w_nodes w n = true ->
  h_cells h a = None -> (forall b e, In (b, e) E -> is_at c n e = false) ->
  let h0 := put_live (put_cell h a (Some (mkcell None None d None None None None))) (S (h_live h)) in
  exists h1 h2, attach_to_astnode h0 n a = Some h1 /\ attach_to_context h1 c a = Some h2 /\
    rep h2 (with_entries w (mkent c n d :: w_entries w)) ((a, mkent c n d) :: E).
Proof.
  intros h w E c n d a R Hw Hn Hfree Hno h0.
  assert (Ha : ~ In a (map fst E)).
  { intros H. apply in_map_iff in H. destruct H as ([b e] & Eb & H). cbn in Eb. subst b.
    rewrite (rp_cells _ _ _ R a e H) in Hfree. discriminate. }
  assert (Han : forall m, ~ In a (nlist E m)).
  { intros m H. apply in_nlist in H. destruct H as (e & H & _). apply Ha. apply in_map_iff. exists (a, e). auto. }
  assert (Hac : forall m, ~ In a (clist E m)).
  { intros m H. apply in_clist in H. destruct H as (e & H & _). apply Ha. apply in_map_iff. exists (a, e). auto. }
  assert (C0 : forall b, b <> a -> h_cells h0 b = h_cells h b) by (intros b Hb; unfold h0; cbn; now apply upd_other).
  assert (Nn : NoDup (nlist E n)) by (apply nodup_filter_fst; apply (rp_nodup _ _ _ R)).
  assert (Nc : NoDup (clist E c)) by (apply nodup_filter_fst; apply (rp_nodup _ _ _ R)).
  destruct (attach_node_ok h0 a (mkcell None None d None None None None) n (nlist E n) Nn (Han n)) as (h1 & A1 & X1 & L1 & N1 & Ca1 & C1).
  { intros b Hb. rewrite C0 by (intros ->; exact (Han n Hb)). now apply (rep_node_linked h w E R). }
  { unfold h0. cbn. apply upd_same. }
  { reflexivity. }
  { unfold h0. cbn. now rewrite (rp_nodes _ _ _ R), Hn. }
  destruct (w_ctxs w c) as [[f u]|] eqn:Ew; [|congruence].
  assert (Hctx : h_ctxs h1 c = Some (mkactx f u (hd_error (clist E c)))) by (rewrite X1; unfold h0; cbn; now rewrite (rp_ctxs _ _ _ R), Ew).
  assert (Lk : ctx_linked h1 (clist E c)).
  { intros b Hb. destruct (rep_ctx_linked h w E R c b Hb) as (d' & Ed & P & S).
    assert (Hba : b <> a) by (intros ->; exact (Hac c Hb)).
    rewrite C1, C0, Ed by exact Hba. destruct (mem b (nlist E n)); cbn [option_map]; eauto. }
  destruct (attach_ctx_ok h1 a _ c _ (clist E c) Nc (Hac c) Lk Ca1 eq_refl Hctx eq_refl) as (h2 & A2 & N2 & L2 & X2 & Ca2 & C2).
  exists h1, h2. split; [exact A1|]. split; [exact A2|]. destruct R as [R1 R2 R3 R4 R5 R6 R7 R8 R9].
  assert (En : forall m, nlist ((a, mkent c n d) :: E) m = if Nat.eqb n m then a :: nlist E m else nlist E m).
  { intros m. unfold nlist, on_node. cbn [filter snd en_node]. destruct (Nat.eqb n m); reflexivity. }
  assert (Ec : forall m, clist ((a, mkent c n d) :: E) m = if Nat.eqb c m then a :: clist E m else clist E m).
  { intros m. unfold clist, on_ctx. cbn [filter snd en_ctx]. destruct (Nat.eqb c m); reflexivity. }
  constructor.
  - cbn. now rewrite R1.
  - cbn. now constructor.
  - cbn. constructor; [|exact R3]. intros H. apply in_map_iff in H. destruct H as ([b e] & Eq & H). cbn in Eq.
    injection Eq as E1 E2. specialize (Hno b e H). unfold is_at in Hno. now rewrite E1, E2, !Nat.eqb_refl in Hno.
  - rewrite L2, L1. unfold h0. cbn. now rewrite R4.
  - intros m. rewrite X2, X1, Ec. cbn [with_entries w_ctxs]. unfold h0. cbn [h_ctxs put_live put_cell]. destruct (Nat.eqb c m) eqn:Em.
    + apply Nat.eqb_eq in Em. subst m. rewrite Ew. reflexivity.
    + apply R5.
  - intros m. rewrite N2, N1, En. cbn [with_entries w_nodes]. unfold h0. cbn [h_nodes put_live put_cell]. destruct (Nat.eqb n m) eqn:Em.
    + apply Nat.eqb_eq in Em. subst m. rewrite Hn. reflexivity.
    + apply R6.
  - intros b e [Eq|H]; [injection Eq as <- <-; cbn; split; [congruence|exact Hn]|]. now apply (R7 b).
  - intros b e [Eq|H].
    + injection Eq as <- <-. rewrite Ca2. unfold cell_of. cbn [en_ctx en_node en_data]. rewrite En, Ec, !Nat.eqb_refl.
      rewrite !pred_head by (constructor; auto). rewrite !succ_head. reflexivity.
    + assert (Hba : b <> a). { intros ->. apply Ha. apply in_map_iff. exists (a, e). auto. }
      rewrite C2, C1, C0, (R8 b e H) by exact Hba. unfold cell_of. rewrite En, Ec.
      assert (M1 : mem b (nlist E n) = Nat.eqb n (en_node e)).
      { apply eq_true_iff_eq. rewrite mem_in, in_nlist, Nat.eqb_eq. split.
        - intros (e2 & H2 & <-). now rewrite (same_entry E b e e2 R2 H H2).
        - intros ->. eauto. }
      assert (M2 : mem b (clist E c) = Nat.eqb c (en_ctx e)).
      { apply eq_true_iff_eq. rewrite mem_in, in_clist, Nat.eqb_eq. split.
        - intros (e2 & H2 & <-). now rewrite (same_entry E b e e2 R2 H H2).
        - intros ->. eauto. }
      rewrite M1, M2. destruct (Nat.eqb n (en_node e)) eqn:K1, (Nat.eqb c (en_ctx e)) eqn:K2;
        rewrite ?Nat.eqb_eq, ?Nat.eqb_neq in *; rewrite ?K1, ?K2; reflexivity.
  - intros b Hb. cbn in Hb. assert (Hba : b <> a) by intuition congruence.
    assert (Hb' : ~ In b (map fst E)) by tauto.
    assert (Hnn : forall m, mem b (nlist E m) = false /\ mem b (clist E m) = false).
    { intros m. rewrite !mem_not. split; intros H.
      - apply in_nlist in H. destruct H as (e' & H & _). apply Hb'. apply in_map_iff. exists (b, e'). auto.
      - apply in_clist in H. destruct H as (e' & H & _). apply Hb'. apply in_map_iff. exists (b, e'). auto. }
    rewrite C2, (proj2 (Hnn _)), C1, (proj1 (Hnn _)), C0 by exact Hba. now apply R9.
Qed.

Lemma drop_uniq : forall E c n a e, NoDup (map fst E) ->
  NoDup (map (fun p : rent => (en_ctx (snd p), en_node (snd p))) E) -> In (a, e) E -> en_ctx e = c -> en_node e = n ->
  map snd (drop a E) = filter (fun e => negb (is_at c n e)) (map snd E).
Proof.
  intros E c n a e Hn Hp Hi Hc Hm. induction E as [|[b f] E IH]; [destruct Hi|]. inversion Hn; inversion Hp; subst.
  rewrite drop_cons. cbn [fst map snd filter]. destruct Hi as [Eq|Hi].
  - injection Eq as -> ->. rewrite Nat.eqb_refl, drop_not_in by assumption. unfold is_at at 1. rewrite !Nat.eqb_refl. cbn [andb negb].
    clear -H5. cbn [snd] in H5. induction E as [|[b f] E IH]; [reflexivity|]. cbn [map snd filter] in *.
    unfold is_at at 1. destruct (Nat.eqb (en_ctx f) (en_ctx e)) eqn:E1, (Nat.eqb (en_node f) (en_node e)) eqn:E2; cbn [andb negb].
    { apply Nat.eqb_eq in E1, E2. exfalso. apply H5. left. congruence. }
    all: f_equal; apply IH; intros H; apply H5; now right.
  - assert (a <> b). { intros ->. apply H1. apply in_map_iff. exists (b, e). auto. }
    rewrite (proj2 (Nat.eqb_neq a b)) by assumption. cbn [map snd]. rewrite (IH H2 H6 Hi).
    assert (Ha : is_at (en_ctx e) (en_node e) f = false).
    { unfold is_at. apply not_true_is_false. rewrite andb_true_iff, !Nat.eqb_eq. intros [A1 A2]. apply H5.
      apply in_map_iff. exists (a, e). cbn. split; [congruence|exact Hi]. }
    now rewrite Ha.
Qed.

Lemma step_ok : forall h w E o, rep h w E -> allowed w o ->
  match o with AAttach _ _ _ (Some a) => h_cells h a = None | _ => True end ->
  exists h' E', astep h o = Some (h', snd (fst (world_step false w o)), snd (world_step false w o)) /\
    rep h' (fst (fst (world_step false w o))) E'.
Proof.
  intros h w E o R Ha Hf. destruct o as [c|n|c f u|c n d mem|c n|c n|c|n]; cbn [allowed] in Ha.
  - exists (put_ctx h c (Some (mkactx None None None))), E. split; [reflexivity|]. cbn [world_step fst].
    pose proof R as [R1 R2 R3 R4 R5 R6 R7 R8 R9].
    assert (Nil : clist E c = []).
    { destruct (clist E c) as [|b l] eqn:El; [reflexivity|]. assert (Hb : In b (clist E c)) by (rewrite El; now left).
      apply in_clist in Hb. destruct Hb as (e & H & <-). destruct (R7 b e H) as [U _]. congruence. }
    constructor; cbn; auto.
    + intros x. unfold upd. destruct (Nat.eqb c x) eqn:Ex; [|apply R5]. apply Nat.eqb_eq in Ex. subst x. now rewrite Nil.
    + intros a e H. destruct (R7 a e H) as [U1 U2]. split; [|exact U2]. unfold upd. destruct (Nat.eqb c (en_ctx e)); congruence.
  - exists (put_node h n (Some None)), E. split; [reflexivity|]. cbn [world_step fst].
    pose proof R as [R1 R2 R3 R4 R5 R6 R7 R8 R9].
    assert (Nil : nlist E n = []).
    { destruct (nlist E n) as [|b l] eqn:El; [reflexivity|]. assert (Hb : In b (nlist E n)) by (rewrite El; now left).
      apply in_nlist in Hb. destruct Hb as (e & H & <-). destruct (R7 b e H) as [_ U]. congruence. }
    constructor; cbn; auto.
    + intros x. unfold upd. destruct (Nat.eqb n x) eqn:Ex; [|apply R6]. apply Nat.eqb_eq in Ex. subst x. now rewrite Nil.
    + intros a e H. destruct (R7 a e H) as [U1 U2]. split; [exact U1|]. rewrite U2. apply orb_true_r.
  - cbn [astep]. pose proof R as [R1 R2 R3 R4 R5 R6 R7 R8 R9]. rewrite R5. destruct (w_ctxs w c) as [[f0 u0]|] eqn:Ew; [|congruence].
    cbn [obind x_annotations]. eexists _, E. split; [reflexivity|]. cbn [world_step fst]. constructor; cbn; auto.
    + intros x. unfold upd. destruct (Nat.eqb c x) eqn:Ex; [|apply R5]. apply Nat.eqb_eq in Ex. now subst x.
    + intros a e H. destruct (R7 a e H) as [U1 U2]. split; [|exact U2]. unfold upd. destruct (Nat.eqb c (en_ctx e)); congruence.
  - destruct Ha as [Hc Hn]. cbn [astep world_step]. destruct (find_ok h w E R c n Hn) as (r & -> & -> & K1 & K2). cbn [obind].
    destruct r as [[a e]|]; cbn [option_map fst snd].
    + destruct (K1 a e eq_refl) as (Hi & E1 & E2). rewrite (rp_cells _ _ _ R a e Hi). cbn [obind fst snd].
      eexists _, _. split; [reflexivity|]. now apply rep_retag.
    + destruct mem as [a|].
      * destruct (rep_attach h w E c n d a R Hc Hn Hf (K2 eq_refl)) as (h1 & h2 & A1 & A2 & R'). rewrite A1. cbn [obind]. rewrite A2.
        cbn [obind fst snd]. eexists _, _. split; [reflexivity|exact R'].
      * exists h, E. split; [reflexivity|exact R].
  - destruct Ha as [Hc Hn]. cbn [astep world_step]. destruct (find_ok h w E R c n Hn) as (r & -> & -> & K1 & K2). cbn [obind].
    exists h, E. split; [|exact R]. destruct r as [[a e]|]; cbn [option_map fst snd]; [|reflexivity].
    destruct (K1 a e eq_refl) as (Hi & E1 & E2). now rewrite (rp_cells _ _ _ R a e Hi).
  - destruct Ha as [Hc Hn]. cbn [astep world_step]. destruct (find_ok h w E R c n Hn) as (r & -> & -> & K1 & K2). cbn [obind].
    destruct r as [[a e]|]; cbn [option_map fst snd].
    + destruct (K1 a e eq_refl) as (Hi & E1 & E2). rewrite (rp_cells _ _ _ R a e Hi). cbn [obind cell_of c_astnode c_context oeqb].
      rewrite E1, E2, !Nat.eqb_refl. cbn [andb].
      destruct (detach_both h w E R a e Hi) as (h1 & h2 & cc & D1 & D2 & Hcc & _ & Hd & _ & R'). rewrite D1. cbn [obind]. rewrite D2. cbn [obind].
      rewrite Hcc. cbn [obind]. rewrite Hd. eexists _, _. split; [reflexivity|].
      rewrite (drop_uniq E c n a e (rp_nodup _ _ _ R) (rp_pairs _ _ _ R) Hi E1 E2), <- (rp_entries _ _ _ R) in R'. exact R'.
    + exists h, E. split; [reflexivity|].
      assert (Ef : filter (fun e => negb (is_at c n e)) (w_entries w) = w_entries w).
      { rewrite (rp_entries _ _ _ R). clear -K2. specialize (K2 eq_refl). induction E as [|[b e] E IH]; [reflexivity|].
        cbn [map snd filter]. rewrite (K2 b e) by now left. cbn [negb]. f_equal. apply IH. intros b' e' H. apply (K2 b'). now right. }
      rewrite Ef. destruct w; exact R.
  - cbn [astep world_step]. destruct (release_all_ok (fun e => Nat.eqb (en_ctx e) c) (fun h => do x <- h_ctxs h c; Some (x_annotations x)) (h_live h) h w E) as (h' & Er & R').
    + intros h1 w1 E1 R1 Wc Wn. rewrite (rp_ctxs _ _ _ R1), Wc. destruct (w_ctxs w c) as [[f u]|]; [reflexivity|congruence].
    + exact R.
    + rewrite (rp_live _ _ _ R). apply filter_len.
    + rewrite Er. cbn [obind fst snd]. exists (put_ctx h' c None), (dropall (fun e => Nat.eqb (en_ctx e) c) E).
      rewrite map_keepall, <- (rp_entries _ _ _ R). split; [reflexivity|].
      rewrite map_dropall, <- (rp_entries _ _ _ R) in R'. destruct R' as [R1 R2 R3 R4 R5 R6 R7 R8 R9]. cbn in *. constructor; cbn; auto.
      * intros x. unfold upd. destruct (Nat.eqb c x); [reflexivity|apply R5].
      * intros a e H. destruct (R7 a e H) as [U1 U2]. split; [|exact U2]. unfold upd.
        apply filter_In in H. destruct H as [_ H]. cbn in H. rewrite Nat.eqb_sym in H. destruct (Nat.eqb c (en_ctx e)); [discriminate|exact U1].
  - cbn [astep world_step]. destruct (release_all_ok (fun e => Nat.eqb (en_node e) n) (fun h => h_nodes h n) (h_live h) h w E) as (h' & Er & R').
    + intros h1 w1 E1 R1 Wc Wn. rewrite (rp_nodes _ _ _ R1), Wn, Ha. reflexivity.
    + exact R.
    + rewrite (rp_live _ _ _ R). apply filter_len.
    + rewrite Er. cbn [obind fst snd]. exists (put_node h' n None), (dropall (fun e => Nat.eqb (en_node e) n) E).
      rewrite map_keepall, <- (rp_entries _ _ _ R). split; [reflexivity|].
      rewrite map_dropall, <- (rp_entries _ _ _ R) in R'. destruct R' as [R1 R2 R3 R4 R5 R6 R7 R8 R9]. cbn in *. constructor; cbn; auto.
      * intros x. unfold upd. destruct (Nat.eqb n x); [reflexivity|apply R6].
      * intros a e H. destruct (R7 a e H) as [U1 U2]. split; [exact U1|].
        apply filter_In in H. destruct H as [_ H]. cbn in H. rewrite Nat.eqb_sym in H. destruct (Nat.eqb n (en_node e)); [discriminate|exact U2].
Qed.

Lemma run_ok : forall l h w E w' rs, rep h w E -> world_run false w l w' rs -> fresh_run h l ->
  exists h' E', arun h l = Some (h', rs) /\ rep h' w' E'.
Proof.
  induction l as [|o l IH]; intros h w E w' rs R Hw Hf;
    inversion Hw as [|w1 o1 w2 r calls l1 w3 rs1 Ha Hs Hr]; subst.
  - exists h, E. auto.
  - destruct Hf as [Hf1 Hf2]. destruct (step_ok h w E o R Ha Hf1) as (h1 & E1 & S & R1).
    cbn [arun]. rewrite S in *. rewrite Hs in *. cbn [fst snd obind] in *.
    destruct (IH h1 w2 E1 w' rs1 R1 Hr Hf2) as (h2 & E2 & Er & R2). rewrite Er. cbn [obind]. eauto.
Qed.

Lemma rep0 : rep heap0 world0 [].
Proof. constructor; cbn; auto; try constructor; intros ? ? []. Qed.

(** ** The history determines the map *)

Lemma world_run_app : forall b l l' w w'' rs, world_run b w (l ++ l') w'' rs ->
  exists w' rs1 rs2, world_run b w l w' rs1 /\ world_run b w' l' w'' rs2 /\ rs = rs1 ++ rs2.
Proof.
  induction l as [|o l IH]; intros l' w w'' rs H.
  - exists w, [], rs. split; [constructor|]. split; [exact H|reflexivity].
  - cbn [app] in H. inversion H as [|w1 o1 w2 r calls l1 w3 rs1 Ha Hs Hr]; subst.
    destruct (IH l' w2 w'' rs1 Hr) as (w' & ra & rb & H1 & H2 & ->). exists w', ((r, calls) :: ra), rb.
    split; [econstructor; eauto|]. split; [exact H2|reflexivity].
Qed.

Lemma find_cons_at : forall c n e l, find (is_at c n) (e :: l) = if is_at c n e then Some e else find (is_at c n) l.
Proof. reflexivity. Qed.

Lemma is_at_mk : forall c n c' n' d, is_at c n (mkent c' n' d) = Nat.eqb c' c && Nat.eqb n' n.
Proof. reflexivity. Qed.

Lemma find_set : forall c n c' n' d l,
  find (is_at c n) (map (set_data c' n' d) l) =
  if Nat.eqb c' c && Nat.eqb n' n then option_map (fun _ => mkent c n d) (find (is_at c n) l) else find (is_at c n) l.
Proof.
  intros c n c' n' d l. induction l as [|e l IH].
  - cbn. destruct (Nat.eqb c' c && Nat.eqb n' n); reflexivity.
  - cbn [map]. rewrite !find_cons_at, IH. unfold set_data at 1 2. destruct (is_at c' n' e) eqn:E1.
    + rewrite is_at_mk. unfold is_at in E1. apply andb_true_iff in E1. rewrite !Nat.eqb_eq in E1. destruct E1 as [<- <-].
      change (Nat.eqb (en_ctx e) c && Nat.eqb (en_node e) n) with (is_at c n e).
      destruct (is_at c n e) eqn:E2; [|reflexivity]. cbn [option_map]. unfold is_at in E2. apply andb_true_iff in E2.
      rewrite !Nat.eqb_eq in E2. destruct E2 as [-> ->]. reflexivity.
    + destruct (is_at c n e) eqn:E2; [|reflexivity]. destruct (Nat.eqb c' c && Nat.eqb n' n) eqn:E3; [|reflexivity].
      apply andb_true_iff in E3. rewrite !Nat.eqb_eq in E3. destruct E3 as [-> ->]. congruence.
Qed.

Lemma find_filter_not : forall c n (f : entry -> bool) l,
  (forall e, is_at c n e = true -> f e = f (mkent c n 0)) ->
  find (is_at c n) (filter f l) = if f (mkent c n 0) then find (is_at c n) l else None.
Proof.
  intros c n f l H. induction l as [|e l IH]; [cbn; now destruct (f _)|]. cbn [filter]. rewrite find_cons_at. destruct (f e) eqn:E.
  - rewrite find_cons_at. destruct (is_at c n e) eqn:E2; [|exact IH]. rewrite <- (H e E2), E. reflexivity.
  - destruct (is_at c n e) eqn:E2; [|exact IH]. rewrite <- (H e E2), E. rewrite <- (H e E2), E in IH. exact IH.
Qed.

Lemma is_at_eq : forall c n e, is_at c n e = true -> en_ctx e = c /\ en_node e = n.
Proof. intros c n e H. unfold is_at in H. apply andb_true_iff in H. now rewrite !Nat.eqb_eq in H. Qed.

Lemma attached_step : forall b w o c n, allowed w o ->
  attached (fst (fst (world_step b w o))) c n = current_step c n (attached w c n) o.
Proof.
  intros b w o c n A. destruct o as [x|x|x f u|x m d mem|x m|x m|x|x]; cbn [world_step current_step]; try reflexivity.
  - destruct (Nat.eqb x c && Nat.eqb m n) eqn:E.
    + apply andb_true_iff in E. rewrite !Nat.eqb_eq in E. destruct E as [-> ->].
      destruct (attached w c n) as [old|] eqn:Ea; [|destruct mem as [a|]]; cbn [fst]; unfold attached; cbn [with_entries w_entries].
      * rewrite find_set, !Nat.eqb_refl. cbn [andb]. unfold attached in Ea. destruct (find _ _); [reflexivity|discriminate].
      * rewrite find_cons_at, is_at_mk, !Nat.eqb_refl. reflexivity.
      * exact Ea.
    + destruct (attached w x m) as [old|]; [|destruct mem as [a|]]; cbn [fst]; unfold attached; cbn [with_entries w_entries].
      * now rewrite find_set, E.
      * now rewrite find_cons_at, is_at_mk, E.
      * reflexivity.
  - cbn [fst]. unfold attached. cbn [with_entries w_entries]. rewrite find_filter_not.
    + unfold is_at at 1. cbn [en_ctx en_node]. rewrite (Nat.eqb_sym c x), (Nat.eqb_sym n m).
      destruct (Nat.eqb x c && Nat.eqb m n); reflexivity.
    + intros e H. apply is_at_eq in H. destruct H as [<- <-]. reflexivity.
  - cbn [fst]. unfold attached. cbn [w_entries]. rewrite find_filter_not.
    + cbn [en_ctx]. rewrite (Nat.eqb_sym c x). destruct (Nat.eqb x c); reflexivity.
    + intros e H. apply is_at_eq in H. destruct H as [<- <-]. reflexivity.
  - cbn [fst]. unfold attached. cbn [w_entries]. rewrite find_filter_not.
    + cbn [en_node]. rewrite (Nat.eqb_sym n x). destruct (Nat.eqb x n); reflexivity.
    + intros e H. apply is_at_eq in H. destruct H as [<- <-]. reflexivity.
Qed.

Lemma attached_run : forall b l w w' rs c n, world_run b w l w' rs ->
  attached w' c n = fold_left (current_step c n) l (attached w c n).
Proof.
  induction l as [|o l IH]; intros w w' rs c n H; inversion H as [|w1 o1 w2 r calls l1 w3 rs1 Ha Hs Hr]; subst; [reflexivity|].
  cbn [fold_left]. rewrite <- (attached_step b w o c n Ha), Hs. eauto.
Qed.

Lemma current_ok : forall b l w rs c n, world_run b world0 l w rs -> attached w c n = current l c n.
Proof. intros b l w rs c n H. rewrite (attached_run b l world0 w rs c n H). reflexivity. Qed.

(** the handler part *)
Definition handler_of (w : world) (c : addr) : option (nat * option nat) :=
  match w_ctxs w c with Some (Some f, u) => Some (f, u) | _ => None end.

Lemma handler_step_ok : forall b w o c, allowed w o ->
  handler_of (fst (fst (world_step b w o))) c = handler_step c (handler_of w c) o.
Proof.
  intros b w o c A. destruct o as [x|x|x f u|x m d mem|x m|x m|x|x]; cbn [world_step handler_step]; try reflexivity; unfold handler_of.
  - cbn [fst w_ctxs]. unfold upd. destruct (Nat.eqb x c); reflexivity.
  - cbn [fst w_ctxs]. unfold upd. destruct f, (Nat.eqb x c); reflexivity.
  - destruct (attached w x m), mem; reflexivity.
  - cbn [fst w_ctxs]. unfold upd. destruct (Nat.eqb x c); reflexivity.
Qed.

Lemma handler_ok : forall b l w rs c, world_run b world0 l w rs -> handler_of w c = handler l c.
Proof.
  intros b l. unfold handler.
  assert (K : forall w w' rs c, world_run b w l w' rs -> handler_of w' c = fold_left (handler_step c) l (handler_of w c)).
  { induction l as [|o l IH]; intros w w' rs c H; inversion H as [|w1 o1 w2 r calls l1 w3 rs1 Ha Hs Hr]; subst; [reflexivity|].
    cbn [fold_left]. rewrite <- (handler_step_ok b w o c Ha), Hs. eauto. }
  intros w rs c H. rewrite (K world0 w rs c H). reflexivity.
Qed.

Lemma handler_call_ok : forall b l w rs e, world_run b world0 l w rs ->
  handler_call b w e = one_call l (if b then Some (en_node e) else None) (en_ctx e) (en_data e).
Proof.
  intros b l w rs e H. unfold handler_call, one_call. rewrite <- (handler_ok b l w rs _ H). unfold handler_of.
  destruct (w_ctxs w (en_ctx e)) as [[[f|] u]|]; reflexivity.
Qed.

(** at most one entry per context and node *)
Definition pairs (w : world) : list (addr * addr) := map (fun e => (en_ctx e, en_node e)) (w_entries w).

Lemma pairs_step : forall b w o, NoDup (pairs w) -> NoDup (pairs (fst (fst (world_step b w o)))).
Proof.
  intros b w o H. unfold pairs in *. destruct o as [x|x|x f u|x m d mem|x m|x m|x|x]; cbn [world_step]; try exact H;
    try (cbn [fst with_entries w_entries]; now apply nodup_map_filter).
  destruct (attached w x m) as [old|] eqn:Ea; [|destruct mem as [a|]]; cbn [fst with_entries w_entries]; [| |exact H].
  - rewrite map_map. erewrite map_ext; [exact H|]. intros e. cbn. destruct (set_data_at x m d e) as [-> ->]. reflexivity.
  - cbn [map en_ctx en_node]. constructor; [|exact H]. intros Hi. apply in_map_iff in Hi. destruct Hi as (e & Ee & Hi). injection Ee as E1 E2.
    unfold attached in Ea. destruct (find (is_at x m) (w_entries w)) eqn:Ef; [discriminate|].
    pose proof (find_none _ _ Ef e Hi) as K. unfold is_at in K. rewrite E1, E2, !Nat.eqb_refl in K. discriminate.
Qed.

Lemma pairs_run : forall b l w w' rs, world_run b w l w' rs -> NoDup (pairs w) -> NoDup (pairs w').
Proof.
  induction l as [|o l IH]; intros w w' rs H N; inversion H as [|w1 o1 w2 r calls l1 w3 rs1 Ha Hs Hr]; subst; [exact N|].
  apply (IH w2 w' rs1 Hr). change w2 with (fst (fst (w2, r, calls))). rewrite <- Hs. now apply pairs_step.
Qed.

Lemma in_entries : forall w e, NoDup (pairs w) ->
  (In e (w_entries w) <-> attached w (en_ctx e) (en_node e) = Some (en_data e)).
Proof.
  intros w e. unfold pairs, attached. induction (w_entries w) as [|f l IH]; intros N.
  - cbn. split; [tauto|discriminate].
  - inversion N; subst. rewrite find_cons_at. destruct (is_at (en_ctx e) (en_node e) f) eqn:E.
    + apply is_at_eq in E. destruct E as [E1 E2]. cbn [option_map]. split.
      * intros [->|Hi]; [reflexivity|]. exfalso. apply H1. apply in_map_iff. exists e. split; [congruence|exact Hi].
      * intros Ed. injection Ed as Ed. left. destruct e, f. cbn in *. congruence.
    + rewrite <- (IH H2). split; [|now right]. intros [->|Hi]; [|exact Hi]. unfold is_at in E. rewrite !Nat.eqb_refl in E. discriminate.
Qed.

(** the calls of freeing a node, by contexts *)
Lemma free_node_calls : forall l w rs n, world_run false world0 l w rs ->
  exists cs, NoDup (map fst cs) /\ (forall c d, In (c, d) cs <-> current l c n = Some d) /\
    snd (world_step false w (AFreeNode n)) = flat_map (fun p => one_call l None (fst p) (snd p)) cs.
Proof.
  intros l w rs n H. pose proof (pairs_run _ _ _ _ _ H (NoDup_nil _)) as N.
  exists (map (fun e => (en_ctx e, en_data e)) (filter (fun e => Nat.eqb (en_node e) n) (w_entries w))). split; [|split].
  - rewrite map_map. cbn [fst]. unfold pairs in N.
    clear -N. induction (w_entries w) as [|e l IH]; [constructor|]. cbn [map filter] in *. inversion N; subst.
    destruct (Nat.eqb (en_node e) n) eqn:E; [|auto]. apply Nat.eqb_eq in E. cbn [map]. constructor; [|auto].
    intros Hi. apply H1. apply in_map_iff in Hi. destruct Hi as (f & E1 & Hf). apply filter_In in Hf. destruct Hf as [Hf E2].
    apply Nat.eqb_eq in E2. apply in_map_iff. exists f. split; [congruence|exact Hf].
  - intros c d. rewrite <- (current_ok false l w rs c n H). rewrite in_map_iff. split.
    + intros (e & E & Hi). apply filter_In in Hi. destruct Hi as [Hi En]. apply Nat.eqb_eq in En. injection E as <- <-. subst n.
      now apply in_entries.
    + intros Ha. exists (mkent c n d). split; [reflexivity|]. apply filter_In. split; [|apply Nat.eqb_refl]. now apply in_entries.
  - cbn [world_step snd]. rewrite flat_map_concat_map, (flat_map_concat_map _ (map _ _)), map_map. f_equal. apply map_ext.
    intros e. rewrite (handler_call_ok false l w rs e H). reflexivity.
Qed.

Lemma free_ctx_calls : forall l w rs c, world_run false world0 l w rs ->
  exists ns, NoDup (map fst ns) /\ (forall n d, In (n, d) ns <-> current l c n = Some d) /\
    snd (world_step false w (AFreeContext c)) = flat_map (fun p => one_call l None c (snd p)) ns.
Proof.
  intros l w rs c H. pose proof (pairs_run _ _ _ _ _ H (NoDup_nil _)) as N.
  exists (map (fun e => (en_node e, en_data e)) (filter (fun e => Nat.eqb (en_ctx e) c) (w_entries w))). split; [|split].
  - rewrite map_map. cbn [fst]. unfold pairs in N.
    clear -N. induction (w_entries w) as [|e l IH]; [constructor|]. cbn [map filter] in *. inversion N; subst.
    destruct (Nat.eqb (en_ctx e) c) eqn:E; [|auto]. apply Nat.eqb_eq in E. cbn [map]. constructor; [|auto].
    intros Hi. apply H1. apply in_map_iff in Hi. destruct Hi as (f & E1 & Hf). apply filter_In in Hf. destruct Hf as [Hf E2].
    apply Nat.eqb_eq in E2. apply in_map_iff. exists f. split; [congruence|exact Hf].
  - intros n d. rewrite <- (current_ok false l w rs c n H). rewrite in_map_iff. split.
    + intros (e & E & Hi). apply filter_In in Hi. destruct Hi as [Hi En]. apply Nat.eqb_eq in En. injection E as <- <-. subst c.
      now apply in_entries.
    + intros Ha. exists (mkent c n d). split; [reflexivity|]. apply filter_In. split; [|apply Nat.eqb_refl]. now apply in_entries.
  - cbn [world_step snd]. rewrite flat_map_concat_map, (flat_map_concat_map _ (map _ _)), map_map. f_equal.
    assert (K : forall e, In e (filter (fun e => Nat.eqb (en_ctx e) c) (w_entries w)) -> handler_call false w e = one_call l None c (en_data e)).
    { intros e Hi. apply filter_In in Hi. destruct Hi as [_ E]. apply Nat.eqb_eq in E. rewrite (handler_call_ok false l w rs e H), E. reflexivity. }
    apply map_ext_in. exact K.
Qed.

Lemma ctx_step : forall b w o c, allowed w o ->
  (w_ctxs (fst (fst (world_step b w o))) c <> None <->
   match o with
   | ANewContext c' => Nat.eqb c' c || match w_ctxs w c with Some _ => true | None => false end
   | AFreeContext c' => negb (Nat.eqb c' c) && match w_ctxs w c with Some _ => true | None => false end
   | _ => match w_ctxs w c with Some _ => true | None => false end
   end = true).
Proof.
  intros b w o c A. destruct o as [x|x|x f u|x m d mem|x m|x m|x|x]; cbn [world_step allowed] in *.
  - cbn [fst w_ctxs]. unfold upd. destruct (Nat.eqb x c); cbn; [split; congruence|]. destruct (w_ctxs w c); split; congruence.
  - cbn [fst w_ctxs]. destruct (w_ctxs w c); split; congruence.
  - cbn [fst w_ctxs]. unfold upd. destruct (Nat.eqb x c) eqn:E; [|destruct (w_ctxs w c); split; congruence].
    apply Nat.eqb_eq in E. subst. destruct (w_ctxs w c); split; congruence.
  - destruct (attached w x m), mem; cbn [fst with_entries w_ctxs]; destruct (w_ctxs w c); split; congruence.
  - cbn [fst w_ctxs]. destruct (w_ctxs w c); split; congruence.
  - cbn [fst with_entries w_ctxs]. destruct (w_ctxs w c); split; congruence.
  - cbn [fst w_ctxs]. unfold upd. destruct (Nat.eqb x c); cbn; [split; congruence|]. destruct (w_ctxs w c); split; congruence.
  - cbn [fst w_ctxs]. destruct (w_ctxs w c); split; congruence.
Qed.

Lemma node_step : forall b w o n, w_nodes (fst (fst (world_step b w o))) n =
   match o with
   | ANewNode n' => Nat.eqb n' n || w_nodes w n
   | AFreeNode n' => negb (Nat.eqb n' n) && w_nodes w n
   | _ => w_nodes w n
   end.
Proof.
  intros b w o n. destruct o as [x|x|x f u|x m d mem|x m|x m|x|x]; try reflexivity.
  cbn [world_step]. destruct (attached w x m), mem; reflexivity.
Qed.

Lemma world_run_snoc : forall b l w w' rs o w'' r calls, world_run b w l w' rs -> allowed w' o -> world_step b w' o = (w'', r, calls) ->
  world_run b w (l ++ [o]) w'' (rs ++ [(r, calls)]).
Proof.
  intros b l w w' rs o w'' r calls H. induction H; intros A S.
  - cbn. econstructor; [exact A|exact S|constructor].
  - cbn [app]. econstructor; eauto.
Qed.

Lemma well_used_run : forall l, well_used l -> exists w rs, world_run false world0 l w rs /\
  (forall c, live_ctx l c = match w_ctxs w c with Some _ => true | None => false end) /\ (forall n, live_node l n = w_nodes w n).
Proof.
  induction l as [|o l IH] using rev_ind; intros H.
  - exists world0, []. split; [constructor|]. split; reflexivity.
  - destruct IH as (w & rs & Hr & Hc & Hn).
    { intros l1 p l2 E. apply (H l1 p (l2 ++ [o])). rewrite E, <- app_assoc. reflexivity. }
    specialize (H l o [] eq_refl).
    assert (A : allowed w o).
    { destruct o; cbn [allowed]; rewrite ?Hc, ?Hn in H; try exact H; try (destruct (w_ctxs w ctx); congruence).
      all: destruct H as [H1 H2]; split; [destruct (w_ctxs w ctx); congruence|exact H2]. }
    destruct (world_step false w o) as [[w' r] calls] eqn:S. exists w', (rs ++ [(r, calls)]). split; [|split].
    + eapply world_run_snoc; eauto.
    + intros c. unfold live_ctx. rewrite fold_left_app. cbn [fold_left]. fold (live_ctx l c). rewrite Hc.
      pose proof (ctx_step false w o c A) as K. rewrite S in K. cbn [fst] in K.
      match goal with |- ?q = _ => set (v := q) in * end. assert (Ev : v = true <-> w_ctxs w' c <> None).
      { unfold v. rewrite K. destruct o; reflexivity. }
      destruct (w_ctxs w' c), v; try reflexivity; destruct Ev as [E1 E2]; [apply E2; congruence|]. exfalso. now apply (E1 eq_refl).
    + intros n. unfold live_node. rewrite fold_left_app. cbn [fold_left]. fold (live_node l n). rewrite Hn.
      pose proof (node_step false w o n) as K. rewrite S in K. cbn [fst] in K. rewrite K. destruct o; reflexivity.
Qed.

Lemma well_used_prefix : forall l l', well_used (l ++ l') -> well_used l.
Proof. intros l l' H l1 o l2 E. apply (H l1 o (l2 ++ l')). rewrite E, <- app_assoc. reflexivity. Qed.

Lemma world_det : forall b l w w1 rs1, world_run b w l w1 rs1 -> forall w2 rs2, world_run b w l w2 rs2 -> w1 = w2 /\ rs1 = rs2.
Proof.
  intros b l w w1 rs1 H. induction H as [|w o w' r calls l w'' rs A S H IH]; intros w2 rs2 H2;
    inversion H2 as [|wa oa wb rb cb lb wc rb1 Ha Hs Hr]; subst; [auto|].
  rewrite S in Hs. injection Hs as <- <- <-. destruct (IH w2 rb1 Hr) as [-> ->]. auto.
Qed.

Lemma fresh_prefix : forall l l' h, fresh_run h (l ++ l') -> fresh_run h l.
Proof.
  induction l as [|o l IH]; intros l' h H; [exact I|]. cbn [app fresh_run] in *. destruct H as [H1 H2]. split; [exact H1|].
  destruct (astep h o) as [[[h1 r] c]|]; [|exact I]. eauto.
Qed.

Lemma arun_snoc : forall l o h h' rs, arun h (l ++ [o]) = Some (h', rs) ->
  exists h1 rs1 r calls, arun h l = Some (h1, rs1) /\ astep h1 o = Some (h', r, calls) /\ rs = rs1 ++ [(r, calls)].
Proof.
  induction l as [|p l IH]; intros o h h' rs H.
  - cbn in H. destruct (astep h o) as [[[h1 r] c]|] eqn:E; [|discriminate]. cbn in H. injection H as <- <-. exists h, [], r, c. auto.
  - cbn [app arun] in H |- *. destruct (astep h p) as [[[h1 r] c]|]; [|discriminate]. cbn [obind] in *.
    destruct (arun h1 (l ++ [o])) as [[h2 rs2]|] eqn:E; [|discriminate]. cbn [obind] in H. injection H as <- <-.
    destruct (IH o h1 h2 rs2 E) as (h3 & rs3 & r3 & c3 & -> & S & ->). cbn [obind]. exists h3, ((r, c) :: rs3), r3, c3. auto.
Qed.

(** everything a correct history does *)
Lemma history_ok : forall l, well_used l -> fresh_run heap0 l ->
  exists h w rs E, world_run false world0 l w rs /\ arun heap0 l = Some (h, rs) /\ rep h w E /\
  (forall c, live_ctx l c = match w_ctxs w c with Some _ => true | None => false end) /\ (forall n, live_node l n = w_nodes w n).
Proof.
  intros l H F. destruct (well_used_run l H) as (w & rs & Hr & Hc & Hn).
  destruct (run_ok l heap0 world0 [] w rs rep0 Hr F) as (h & E & Er & R). exists h, w, rs, E. auto.
Qed.

Lemma last_step : forall l o, well_used (l ++ [o]) -> fresh_run heap0 (l ++ [o]) ->
  exists h w rs h', world_run false world0 l w rs /\ arun heap0 l = Some (h, rs) /\
    astep h o = Some (h', snd (fst (world_step false w o)), snd (world_step false w o)).
Proof.
  intros l o H F. destruct (history_ok _ H F) as (h' & w' & rs' & E' & Hr' & Er' & R' & _).
  destruct (history_ok l (well_used_prefix _ _ H) (fresh_prefix _ _ _ F)) as (h & w & rs & E & Hr & Er & R & _).
  destruct (arun_snoc _ _ _ _ _ Er') as (h1 & rs1 & r & calls & E1 & S1 & ->). rewrite Er in E1. injection E1 as <- <-.
  apply world_run_app in Hr'. destruct Hr' as (w1 & ra & rb & Ha & Hb & Eq). destruct (world_det _ _ _ _ _ Hr _ _ Ha) as [<- <-].
  apply app_inv_head in Eq. subst rb. inversion Hb as [|wa oa wb rb cb lb wc rb1 A S Hr2]; subst.
  exists h, w, rs, h'. split; [exact Hr|]. split; [exact Er|]. rewrite S. exact S1.
Qed.
