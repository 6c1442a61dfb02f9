(** * Trees of nodes: induction, ordinals *)
From Coq Require Import List Bool Arith Lia Sorted.
From Verif Require Import Peg QuickModel AstTypes AstModel CypherParse CypherSpec.
Import ListNotations.

Lemma node_ind2 : forall P : node -> Prop,
  (forall i t r f ks o, Forall P ks -> P (Node i t r f ks o)) -> forall n, P n.
Proof.
  intros P H. fix IH 1. intros [i t r f ks o]. apply H.
  induction ks as [|k ks IHk]; constructor; [apply IH|exact IHk].
Qed.

(** the tree without its ordinals *)
Fixpoint erase (n : node) : node :=
  match n with Node i t r f ks _ => Node i t r f (map erase ks) 0 end.

Fixpoint go_ordinals (ks : list node) (m : nat) : list node * nat :=
  match ks with
  | [] => ([], m)
  | k :: ks =>
      let (k', m1) := set_ordinals k m in
      let (ks', m2) := go_ordinals ks m1 in
      (k' :: ks', m2)
  end.

Lemma go_all : forall ks m, go_ordinals ks m = set_ordinals_all ks m.
Proof.
  induction ks as [|k ks IH]; intros m; [reflexivity|]. cbn. destruct (set_ordinals k m).
  rewrite IH. reflexivity.
Qed.

Lemma set_ordinals_eq : forall i t r f ks o n, set_ordinals (Node i t r f ks o) n =
  let (ks', m) := set_ordinals_all ks (S n) in (Node i t r f ks' n, m).
Proof. intros. rewrite <- go_all. reflexivity. Qed.

Lemma preorder_eq : forall i t r f ks o,
  preorder (Node i t r f ks o) = Node i t r f ks o :: forest ks.
Proof. reflexivity. Qed.

Lemma forest_cons : forall t ts, forest (t :: ts) = preorder t ++ forest ts.
Proof. reflexivity. Qed.

Lemma forest_app : forall l1 l2, forest (l1 ++ l2) = forest l1 ++ forest l2.
Proof. intros. unfold forest. apply flat_map_app. Qed.

Definition ord_ok (t : node) : Prop := forall n,
  let (t', m) := set_ordinals t n in
  m = n + List.length (preorder t) /\ erase t' = erase t /\
  map nord (preorder t') = seq n (List.length (preorder t)) /\
  List.length (preorder t') = List.length (preorder t).

Lemma set_all_ok : forall ts, Forall ord_ok ts -> forall n,
  let (ts', m) := set_ordinals_all ts n in
  m = n + List.length (forest ts) /\ map erase ts' = map erase ts /\
  map nord (forest ts') = seq n (List.length (forest ts)) /\
  List.length (forest ts') = List.length (forest ts).
Proof.
  induction 1 as [|t ts Ht _ IH]; intros n; cbn [set_ordinals_all].
  - cbn. rewrite Nat.add_0_r. auto.
  - specialize (Ht n). destruct (set_ordinals t n) as [t' m]. destruct Ht as [-> [H2 [H3 H4]]].
    specialize (IH (n + List.length (preorder t))).
    destruct (set_ordinals_all ts _) as [ts' m']. destruct IH as [-> [I2 [I3 I4]]].
    rewrite !forest_cons, !app_length, map_app, H3, I3. cbn [map]. rewrite H2, I2, H4, I4.
    repeat split; [lia|]. symmetry. apply seq_app.
Qed.

Lemma ord_ok_all : forall t, ord_ok t.
Proof.
  apply node_ind2. intros i t r f ks o H n. rewrite set_ordinals_eq.
  pose proof (set_all_ok ks H (S n)) as A. destruct (set_ordinals_all ks (S n)) as [ks' m].
  destruct A as [-> [A2 [A3 A4]]]. rewrite !preorder_eq. cbn [erase map nord List.length seq].
  rewrite A2, A3, A4. repeat split; lia.
Qed.

Lemma ordinals_all : forall ts n, let r := set_ordinals_all ts n in
  snd r = n + List.length (forest ts) /\ map erase (fst r) = map erase ts /\
  map nord (forest (fst r)) = seq n (List.length (forest ts)) /\
  List.length (forest (fst r)) = List.length (forest ts).
Proof.
  intros ts n. pose proof (set_all_ok ts) as H. specialize (H (proj2 (Forall_forall _ _) (fun t _ => ord_ok_all t)) n).
  cbn. destruct (set_ordinals_all ts n). exact H.
Qed.

(** properties that do not depend on ordinals *)
Lemma preorder_erase : forall t, preorder (erase t) = map erase (preorder t).
Proof.
  apply node_ind2. intros i t r f ks o H. cbn [erase]. rewrite !preorder_eq. cbn [map erase]. f_equal.
  induction H as [|k ks Hk _ IH]; [reflexivity|]. cbn [map]. rewrite !forest_cons, map_app, Hk, IH. reflexivity.
Qed.

Lemma forest_erase : forall ts, forest (map erase ts) = map erase (forest ts).
Proof.
  induction ts as [|t ts IH]; [reflexivity|]. cbn [map]. rewrite !forest_cons, map_app, preorder_erase, IH. reflexivity.
Qed.

Lemma erase_rng : forall t, nrng (erase t) = nrng t.
Proof. intros []. reflexivity. Qed.

Lemma erase_kids : forall t, nkids (erase t) = map erase (nkids t).
Proof. intros []. reflexivity. Qed.

Lemma erase_id : forall t, nid (erase t) = nid t.
Proof. intros []. reflexivity. Qed.

Lemma erase_ty : forall t, nty (erase t) = nty t.
Proof. intros []. reflexivity. Qed.

Lemma erase_flds : forall t, nflds (erase t) = nflds t.
Proof. intros []. reflexivity. Qed.

Lemma nested_erase : forall t, nested (erase t) <-> nested t.
Proof.
  intros t. unfold nested. rewrite erase_rng, erase_kids, map_map.
  assert (map (fun x => offset (r_end (nrng (erase x)))) (nkids t) =
          map (fun k => offset (r_end (nrng k))) (nkids t)) as ->.
  { apply map_ext. intros a. rewrite erase_rng. reflexivity. }
  split; intros [H1 [H2 H3]]; (split; [exact H1|]); (split; [|exact H3]).
  - intros k Hk. specialize (H2 (erase k)). rewrite erase_rng in H2. apply H2. apply in_map. exact Hk.
  - intros k Hk. apply in_map_iff in Hk. destruct Hk as [k' [<- Hk]]. rewrite erase_rng. auto.
Qed.

(** every node of the numbered forest is one of the forest, up to ordinals *)
Lemma forest_numbered : forall (P : node -> Prop) ts n, (forall t, P t <-> P (erase t)) ->
  Forall P (forest ts) -> Forall P (forest (fst (set_ordinals_all ts n))).
Proof.
  intros P ts n HP H. pose proof (ordinals_all ts n) as [_ [E _]].
  assert (F : forall us, Forall P (forest us) <-> Forall P (forest (map erase us))).
  { intros us. rewrite forest_erase. rewrite Forall_map. split; apply Forall_impl; intros a; apply HP. }
  apply F. rewrite E. apply F in H. exact H.
Qed.
