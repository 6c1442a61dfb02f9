(** * Proofs about the ownership of segments and results *)
From Coq Require Import List Bool Arith NArith Lia.
From Verif Require Import AnnotModel OwnModel OwnSpec.
Import ListNotations.

Definition cnt (l : list addr) (a : addr) : nat := count_occ Nat.eq_dec l a.

Lemma cnt_app : forall l l' a, cnt (l ++ l') a = cnt l a + cnt l' a.
Proof. intros. apply count_occ_app. Qed.
Lemma cnt_cons : forall x l a, cnt (x :: l) a = (if Nat.eqb x a then 1 else 0) + cnt l a.
Proof.
  intros. unfold cnt. cbn. destruct (Nat.eq_dec x a) as [->|H]; [now rewrite Nat.eqb_refl|].
  now rewrite (proj2 (Nat.eqb_neq x a)).
Qed.
Lemma cnt_nil : forall a, cnt [] a = 0.
Proof. reflexivity. Qed.
Lemma cnt_in : forall l a, 0 < cnt l a <-> In a l.
Proof. intros. unfold cnt. rewrite (count_occ_In Nat.eq_dec). split; auto. Qed.
Lemma cnt_nodup : forall l, NoDup l <-> forall a, cnt l a <= 1.
Proof. intros. apply (NoDup_count_occ Nat.eq_dec). Qed.
Lemma inside_in : forall l a, inside l a = true <-> In a l.
Proof.
  intros. unfold inside. rewrite existsb_exists. split.
  - intros (x & H & E). apply Nat.eqb_eq in E. now subst.
  - intros H. exists a. split; [exact H|apply Nat.eqb_refl].
Qed.
Lemma live_cnt : forall o a, live o a = (0 <? cnt (o_live o) a).
Proof.
  intros. apply eq_true_iff_eq. unfold live. change (existsb (Nat.eqb a) (o_live o)) with (inside (o_live o) a).
  rewrite inside_in, Nat.ltb_lt. symmetry. apply cnt_in.
Qed.
Lemma inside_cnt : forall l a, inside l a = (0 <? cnt l a).
Proof. intros. apply eq_true_iff_eq. rewrite inside_in, Nat.ltb_lt. symmetry. apply cnt_in. Qed.

Lemma remove_cnt : forall l x a, cnt (remove Nat.eq_dec x l) a = if Nat.eqb x a then 0 else cnt l a.
Proof.
  induction l as [|y l IH]; intros x a; cbn [remove].
  - cbn. destruct (Nat.eqb x a); reflexivity.
  - destruct (Nat.eq_dec x y) as [->|H].
    + rewrite IH, cnt_cons. destruct (Nat.eqb y a); reflexivity.
    + rewrite !cnt_cons, IH. destruct (Nat.eqb x a) eqn:E; [|reflexivity]. apply Nat.eqb_eq in E. subst.
      now rewrite (proj2 (Nat.eqb_neq y a)) by congruence.
Qed.

Lemma free_all_ok : forall l o, (forall a, cnt (o_live o) a <= 1) -> (forall a, cnt l a <= cnt (o_live o) a) ->
  exists o', free_all l o = Some o' /\ o_segs o' = o_segs o /\ o_ress o' = o_ress o /\
    forall a, cnt (o_live o') a = cnt (o_live o) a - cnt l a.
Proof.
  induction l as [|x l IH]; intros o H1 H2.
  - exists o. cbn [free_all]. split; [reflexivity|]. split; [reflexivity|]. split; [reflexivity|]. intros. cbn. lia.
  - cbn [free_all]. unfold free. rewrite live_cnt.
    assert (Hx : cnt (o_live o) x = 1). { specialize (H1 x). specialize (H2 x). rewrite cnt_cons, Nat.eqb_refl in H2. lia. }
    rewrite Hx. cbn [Nat.ltb Nat.leb obind].
    destruct (IH (mkown (remove Nat.eq_dec x (o_live o)) (o_segs o) (o_ress o))) as (o' & E & S & R & C); cbn [o_live o_segs o_ress] in *.
    + intros a. rewrite remove_cnt. specialize (H1 a). destruct (Nat.eqb x a); lia.
    + intros a. rewrite remove_cnt. specialize (H1 a). specialize (H2 a). rewrite cnt_cons in H2.
      destruct (Nat.eqb x a) eqn:E; [|lia]. apply Nat.eqb_eq in E. subst. lia.
    + exists o'. split; [exact E|]. split; [exact S|]. split; [exact R|]. intros a. rewrite C, remove_cnt, cnt_cons.
      specialize (H1 a). destruct (Nat.eqb x a) eqn:Ex; [|lia]. apply Nat.eqb_eq in Ex. subst. lia.
Qed.

(** ** The owners *)

Fixpoint lookup {X} (k : addr) (l : list (addr * X)) : option X :=
  match l with [] => None | (a, v) :: l => if Nat.eqb a k then Some v else lookup k l end.
Fixpoint unlink {X} (k : addr) (l : list (addr * X)) : list (addr * X) :=
  match l with [] => [] | (a, v) :: l => if Nat.eqb a k then l else (a, v) :: unlink k l end.

Definition held {X} (f : addr -> X -> list addr) (l : list (addr * X)) (a : addr) : nat :=
  list_sum (map (fun p => cnt (f (fst p) (snd p)) a) l).

Lemma held_cons : forall X (f : addr -> X -> list addr) k v l a, held f ((k, v) :: l) a = cnt (f k v) a + held f l a.
Proof. reflexivity. Qed.

Lemma held_unlink : forall X (f : addr -> X -> list addr) k v l a, lookup k l = Some v ->
  held f l a = cnt (f k v) a + held f (unlink k l) a.
Proof.
  induction l as [|[b u] l IH]; intros a H; [discriminate|]. cbn [lookup unlink] in *. destruct (Nat.eqb b k) eqn:E.
  - injection H as <-. apply Nat.eqb_eq in E. subst. apply held_cons.
  - rewrite !held_cons, (IH a H). lia.
Qed.

Lemma held_self : forall X (f : addr -> X -> list addr) k v l, lookup k l = Some v -> (forall v, In k (f k v)) -> 1 <= held f l k.
Proof.
  intros X f k v l H Hf. rewrite (held_unlink _ f k v l k H). specialize (Hf v). apply cnt_in in Hf. lia.
Qed.

Lemma lookup_unlink_other : forall X k b (l : list (addr * X)), b <> k -> lookup b (unlink k l) = lookup b l.
Proof.
  induction l as [|[a u] l IH]; intros H; [reflexivity|]. cbn [unlink lookup]. destruct (Nat.eqb a k) eqn:E.
  - apply Nat.eqb_eq in E. subst. now rewrite (proj2 (Nat.eqb_neq k b)) by congruence.
  - cbn [lookup]. destruct (Nat.eqb a b); auto.
Qed.

Lemma in_unlink : forall X k p (l : list (addr * X)), In p (unlink k l) -> In p l.
Proof.
  induction l as [|[a u] l IH]; intros H; [exact H|]. cbn [unlink] in H. destruct (Nat.eqb a k); [now right|].
  destruct H as [H|H]; [now left|right; auto].
Qed.

Lemma lookup_in : forall X k (v : X) l, lookup k l = Some v -> In (k, v) l.
Proof.
  induction l as [|[a u] l IH]; intros H; [discriminate|]. cbn [lookup] in H. destruct (Nat.eqb a k) eqn:E.
  - injection H as <-. apply Nat.eqb_eq in E. subst. now left.
  - right. auto.
Qed.

Lemma lookup_none : forall X k (l : list (addr * X)), ~ In k (map fst l) -> lookup k l = None.
Proof.
  induction l as [|[a u] l IH]; intros H; [reflexivity|]. cbn [lookup]. destruct (Nat.eqb a k) eqn:E.
  - apply Nat.eqb_eq in E. subst. exfalso. apply H. now left.
  - apply IH. intros Hi. apply H. now right.
Qed.

Definition bit (b : bool) : nat := if b then 1 else 0.

Record orep (o : own) (w : ledger) (S : list (addr * segm)) (X : list (addr * resl)) : Prop := {
  or_live : forall a, cnt (o_live o) a = bit (loose w a) + held seg_frees S a + held res_frees X a;
  or_once : forall a, cnt (o_live o) a <= 1;
  or_segs : forall s, o_segs o s = lookup s S;
  or_ress : forall r, o_ress o r = lookup r X;
  or_refs : forall s, refs w s = match lookup s S with Some g => g_refcount g | None => 0%N end;
  or_results : forall r, results w r = match lookup r X with Some _ => true | None => false end;
  or_small : forall s g, In (s, g) S -> (0 < g_refcount g)%N /\ (g_refcount g < UINT)%N;
  or_cap : forall r x, In (r, x) X -> length (r_dirs x) <= r_dircap x }.

Lemma seg_frees_self : forall s g, In s (seg_frees s g).
Proof. intros. unfold seg_frees. rewrite !in_app_iff. right. right. right. right. now left. Qed.
Lemma res_frees_self : forall s g, In s (res_frees s g).
Proof. intros. unfold res_frees. rewrite !in_app_iff. right. right. right. right. right. now left. Qed.

Lemma unlink_none : forall o w S X s, orep o w S X -> lookup s (unlink s S) = None.
Proof.
  intros o w S X s R. destruct (lookup s (unlink s S)) as [g|] eqn:E; [|reflexivity]. exfalso.
  pose proof (held_self _ seg_frees s g _ E (seg_frees_self s)) as H1.
  destruct (lookup s S) as [g'|] eqn:E'.
  - pose proof (held_unlink _ seg_frees s g' S s E') as H2. pose proof (or_live _ _ _ _ R s). pose proof (or_once _ _ _ _ R s).
    pose proof (proj2 (cnt_in _ s) (seg_frees_self s g')). lia.
  - clear -E E'. induction S as [|[a u] S IH]; [discriminate|]. cbn [lookup unlink] in *.
    destruct (Nat.eqb a s) eqn:Ea; [discriminate|]. cbn [lookup] in E. rewrite Ea in E. auto.
Qed.
Lemma unlink_none_res : forall o w S X s, orep o w S X -> lookup s (unlink s X) = None.
Proof.
  intros o w S X s R. destruct (lookup s (unlink s X)) as [g|] eqn:E; [|reflexivity]. exfalso.
  pose proof (held_self _ res_frees s g _ E (res_frees_self s)) as H1.
  destruct (lookup s X) as [g'|] eqn:E'.
  - pose proof (held_unlink _ res_frees s g' X s E') as H2. pose proof (or_live _ _ _ _ R s). pose proof (or_once _ _ _ _ R s).
    pose proof (proj2 (cnt_in _ s) (res_frees_self s g')). lia.
  - clear -E E'. induction X as [|[a u] S IH]; [discriminate|]. cbn [lookup unlink] in *.
    destruct (Nat.eqb a s) eqn:Ea; [discriminate|]. cbn [lookup] in E. rewrite Ea in E. auto.
Qed.

Lemma get_seg_ok : forall o w S X s, orep o w S X -> (0 < refs w s)%N ->
  exists g, lookup s S = Some g /\ get_seg o s = Some g /\ refs w s = g_refcount g /\ (g_refcount g < UINT)%N.
Proof.
  intros o w S X s R H. rewrite (or_refs _ _ _ _ R) in *. destruct (lookup s S) as [g|] eqn:E; [|lia].
  exists g. split; [reflexivity|]. unfold get_seg. rewrite live_cnt, (or_live _ _ _ _ R).
  pose proof (held_self _ seg_frees s g S E (seg_frees_self s)).
  rewrite (proj2 (Nat.ltb_lt 0 _)) by lia. rewrite (or_segs _ _ _ _ R), E. split; [reflexivity|].
  split; [reflexivity|]. apply lookup_in in E. apply (or_small _ _ _ _ R) in E. tauto.
Qed.
Lemma get_res_ok : forall o w S X r, orep o w S X -> results w r = true ->
  exists x, lookup r X = Some x /\ get_res o r = Some x.
Proof.
  intros o w S X r R H. rewrite (or_results _ _ _ _ R) in H. destruct (lookup r X) as [x|] eqn:E; [|discriminate].
  exists x. split; [reflexivity|]. unfold get_res. rewrite live_cnt, (or_live _ _ _ _ R).
  pose proof (held_self _ res_frees r x X E (res_frees_self r)).
  rewrite (proj2 (Nat.ltb_lt 0 _)) by lia. now rewrite (or_ress _ _ _ _ R), E.
Qed.

Lemma upd_eq : forall X (f : addr -> option X) a v b, upd f a v b = if Nat.eqb a b then v else f b.
Proof. reflexivity. Qed.
Lemma put_eq : forall X (f : addr -> X) a v b, put f a v b = if Nat.eqb a b then v else f b.
Proof. reflexivity. Qed.

(** one segment changes, without giving up memory *)
Lemma orep_seg : forall o w S X s g g' n, orep o w S X -> lookup s S = Some g ->
  g_refcount g' = n -> (0 < n)%N -> (n < UINT)%N -> (forall a, cnt (seg_frees s g') a = cnt (seg_frees s g) a) ->
  orep (set_seg o s (Some g')) (mkledger (put (refs w) s n) (results w) (loose w)) ((s, g') :: unlink s S) X.
Proof.
  intros o w S X s g g' n R Hl Hn Hp Hu Hf. constructor; cbn [set_seg o_live o_segs o_ress refs results loose].
  - intros a. rewrite held_cons, Hf, (or_live _ _ _ _ R), (held_unlink _ seg_frees s g S a Hl). lia.
  - apply (or_once _ _ _ _ R).
  - intros b. rewrite upd_eq. cbn [lookup]. destruct (Nat.eqb s b) eqn:E; [reflexivity|].
    apply Nat.eqb_neq in E. rewrite lookup_unlink_other by congruence. apply (or_segs _ _ _ _ R).
  - apply (or_ress _ _ _ _ R).
  - intros b. rewrite put_eq. cbn [lookup]. destruct (Nat.eqb s b) eqn:E; [now symmetry|].
    apply Nat.eqb_neq in E. rewrite lookup_unlink_other by congruence. apply (or_refs _ _ _ _ R).
  - apply (or_results _ _ _ _ R).
  - intros b h [E|H]; [injection E as <- <-; subst; auto|]. apply in_unlink in H. now apply (or_small _ _ _ _ R b).
  - apply (or_cap _ _ _ _ R).
Qed.

Lemma retain_ok : forall o w S X s, orep o w S X -> oallowed w (ORetain s) ->
  exists o' S', ostep o (ORetain s) = Some (o', ODone) /\ o_live o' = o_live o /\ orep o' (ledger_step w (ORetain s) ODone) S' X.
Proof.
  intros o w S X s R [H1 H2]. destruct (get_seg_ok o w S X s R H1) as (g & Hl & Hg & Hr & Hu). cbn [ostep]. unfold seg_retain.
  rewrite Hg. cbn [obind]. rewrite <- Hr, (proj2 (N.ltb_lt _ _) H1). cbn [obind]. eexists _, _. split; [reflexivity|]. split; [reflexivity|].
  rewrite N.mod_small by exact H2. cbn [ledger_step]. apply (orep_seg o w S X s g); try assumption; try (intros; reflexivity); lia.
Qed.

Lemma release_ok : forall o w S X s, orep o w S X -> (0 < refs w s)%N ->
  exists o' g S', get_seg o s = Some g /\
    ostep o (ORelease s) = Some (o', OFreed (if (1 <? refs w s)%N then [] else seg_frees s g)) /\
    (forall a, cnt (o_live o') a = cnt (o_live o) a - (if (1 <? refs w s)%N then 0 else cnt (seg_frees s g) a)) /\
    NoDup (seg_frees s g) /\
    orep o' (ledger_step w (ORelease s) (OFreed [])) S' X.
Proof.
  intros o w S X s R H1. destruct (get_seg_ok o w S X s R H1) as (g & Hl & Hg & Hr & Hu). cbn [ostep]. unfold seg_release.
  rewrite Hg. cbn [obind]. rewrite <- Hr, (proj2 (N.ltb_lt _ _) H1). cbn [negb].
  assert (Hnd : NoDup (seg_frees s g)).
  { apply cnt_nodup. intros a. pose proof (or_once _ _ _ _ R a). pose proof (or_live _ _ _ _ R a).
    pose proof (held_unlink _ seg_frees s g S a Hl). lia. }
  destruct (1 <? refs w s)%N eqn:E1.
  - apply N.ltb_lt in E1. rewrite (proj2 (N.ltb_lt 0 _)) by lia. cbn [obind]. eexists _, g, _. split; [reflexivity|]. split; [reflexivity|].
    split; [intros a; cbn [set_seg o_live]; lia|]. split; [exact Hnd|].
    cbn [ledger_step]. apply (orep_seg o w S X s g); try assumption; try (intros; reflexivity); lia.
  - apply N.ltb_ge in E1. rewrite (proj2 (N.ltb_ge 0 _)) by lia.
    destruct (free_all_ok (seg_frees s g) o) as (o' & Ef & Es & Er & C).
    { apply (or_once _ _ _ _ R). }
    { intros a. rewrite (or_live _ _ _ _ R), (held_unlink _ seg_frees s g S a Hl). lia. }
    rewrite Ef. cbn [obind]. exists (set_seg o' s None), g, (unlink s S). split; [reflexivity|]. split; [reflexivity|].
    split; [exact C|]. split; [exact Hnd|]. cbn [ledger_step].
    constructor; cbn [set_seg o_live o_segs o_ress refs results loose].
    + intros a. rewrite C, (or_live _ _ _ _ R), (held_unlink _ seg_frees s g S a Hl). lia.
    + intros a. rewrite C. pose proof (or_once _ _ _ _ R a). lia.
    + intros b. rewrite upd_eq, Es. destruct (Nat.eqb s b) eqn:E; [apply Nat.eqb_eq in E; subst; symmetry; now apply (unlink_none _ _ _ _ _ R)|].
      apply Nat.eqb_neq in E. rewrite lookup_unlink_other by congruence. apply (or_segs _ _ _ _ R).
    + intros b. rewrite Er. apply (or_ress _ _ _ _ R).
    + intros b. rewrite put_eq. destruct (Nat.eqb s b) eqn:E.
      * apply Nat.eqb_eq in E. subst. rewrite (unlink_none _ _ _ _ _ R). lia.
      * apply Nat.eqb_neq in E. rewrite lookup_unlink_other by congruence. apply (or_refs _ _ _ _ R).
    + apply (or_results _ _ _ _ R).
    + intros b h H. apply in_unlink in H. now apply (or_small _ _ _ _ R b).
    + apply (or_cap _ _ _ _ R).
Qed.

Lemma resfree_ok : forall o w S X r, orep o w S X -> results w r = true ->
  exists o' x X', get_res o r = Some x /\ ostep o (OResultFree r) = Some (o', OFreed (res_frees r x)) /\
    (forall a, cnt (o_live o') a = cnt (o_live o) a - cnt (res_frees r x) a) /\ NoDup (res_frees r x) /\
    orep o' (ledger_step w (OResultFree r) (OFreed [])) S X'.
Proof.
  intros o w S X r R H. destruct (get_res_ok o w S X r R H) as (x & Hl & Hg). cbn [ostep]. unfold res_free. rewrite Hg. cbn [obind].
  destruct (free_all_ok (res_frees r x) o) as (o' & Ef & Es & Er & C).
  { apply (or_once _ _ _ _ R). }
  { intros a. rewrite (or_live _ _ _ _ R), (held_unlink _ res_frees r x X a Hl). lia. }
  rewrite Ef. cbn [obind]. exists (set_res o' r None), x, (unlink r X). split; [reflexivity|]. split; [reflexivity|]. split; [exact C|].
  split.
  { apply cnt_nodup. intros a. pose proof (or_once _ _ _ _ R a). pose proof (or_live _ _ _ _ R a).
    pose proof (held_unlink _ res_frees r x X a Hl). lia. }
  cbn [ledger_step]. constructor; cbn [set_res o_live o_segs o_ress refs results loose].
  + intros a. rewrite C, (or_live _ _ _ _ R), (held_unlink _ res_frees r x X a Hl). lia.
  + intros a. rewrite C. pose proof (or_once _ _ _ _ R a). lia.
  + intros b. rewrite Es. apply (or_segs _ _ _ _ R).
  + intros b. rewrite upd_eq, Er. destruct (Nat.eqb r b) eqn:E; [apply Nat.eqb_eq in E; subst; symmetry; now apply (unlink_none_res _ _ _ _ _ R)|].
    apply Nat.eqb_neq in E. rewrite lookup_unlink_other by congruence. apply (or_ress _ _ _ _ R).
  + apply (or_refs _ _ _ _ R).
  + intros b. rewrite put_eq. destruct (Nat.eqb r b) eqn:E.
    * apply Nat.eqb_eq in E. subst. now rewrite (unlink_none_res _ _ _ _ _ R).
    * apply Nat.eqb_neq in E. rewrite lookup_unlink_other by congruence. apply (or_results _ _ _ _ R).
  + apply (or_small _ _ _ _ R).
  + intros b h Hi. apply in_unlink in Hi. now apply (or_cap _ _ _ _ R b).
Qed.

Lemma alloc_cnt : forall o a b, cnt (o_live (alloc a o)) b = bit (Nat.eqb a b) + cnt (o_live o) b.
Proof. intros. cbn [alloc o_live]. rewrite cnt_cons. reflexivity. Qed.

Lemma not_live : forall o a, live o a = false -> cnt (o_live o) a = 0.
Proof. intros o a H. rewrite live_cnt in H. apply Nat.ltb_ge in H. lia. Qed.

Lemma cnt_blk_app : forall p l a, cnt (blk p ++ l) a = cnt (blk p) a + cnt l a.
Proof. intros. apply cnt_app. Qed.
Lemma cnt_some : forall p a, cnt (blk (Some p)) a = bit (Nat.eqb p a).
Proof. intros. cbn [blk]. rewrite cnt_cons, cnt_nil. unfold bit. lia. Qed.

Lemma allocs_ok : forall o w S X l, orep o w S X -> NoDup l -> (forall a, In a l -> live o a = false) ->
  orep (mkown (l ++ o_live o) (o_segs o) (o_ress o)) (ledger_step w (OAlloc l) ODone) S X.
Proof.
  intros o w S X l R Hn Hf. rewrite cnt_nodup in Hn.
  assert (Hz : forall a, 0 < cnt l a -> cnt (o_live o) a = 0) by (intros a H; apply not_live, Hf, cnt_in, H).
  constructor; cbn [o_live o_segs o_ress ledger_step refs results loose]; try apply R.
  - intros a. rewrite cnt_app. specialize (Hn a). specialize (Hz a). pose proof (or_live _ _ _ _ R a) as H.
    rewrite inside_cnt. destruct (0 <? cnt l a) eqn:E.
    + apply Nat.ltb_lt in E. cbn [orb bit]. destruct (loose w a); cbn [bit] in H; lia.
    + apply Nat.ltb_ge in E. cbn [orb]. lia.
  - intros a. rewrite cnt_app. specialize (Hn a). specialize (Hz a). pose proof (or_once _ _ _ _ R a). lia.
Qed.

Lemma in_blk : forall p a, In a (blk p) <-> p = Some a.
Proof.
  intros [b|] a; cbn; split; intros H; try discriminate; try tauto.
  - destruct H as [->|[]]. reflexivity.
  - injection H as ->. now left.
Qed.

Lemma given_cnt : forall errs trees a, cnt (given errs trees) a = cnt (errs_frees errs) a + cnt (flat_map tree_frees trees) a.
Proof. intros. apply cnt_app. Qed.

Lemma seg_cnt : forall s g a, cnt (seg_frees s g) a =
  cnt (errs_frees (g_errs g)) a + cnt (blk (g_errors g)) a + cnt (flat_map tree_frees (g_trees g)) a + cnt (blk (g_roots g)) a + bit (Nat.eqb s a).
Proof. intros. unfold seg_frees. rewrite !cnt_app. change [s] with (blk (Some s)). rewrite cnt_some. lia. Qed.
Lemma res_cnt : forall s g a, cnt (res_frees s g) a =
  cnt (errs_frees (r_errs g)) a + cnt (blk (r_errors g)) a + cnt (flat_map tree_frees (r_trees g)) a + cnt (blk (r_roots g)) a +
  cnt (blk (r_directives g)) a + bit (Nat.eqb s a).
Proof. intros. unfold res_frees. rewrite !cnt_app. change [s] with (blk (Some s)). rewrite cnt_some. lia. Qed.

(** a new segment with the blocks [B] for its arrays *)
Lemma orep_new : forall o w S X errs trees nn dir eof s e b, orep o w S X ->
  oallowed w (OSegment errs trees nn dir eof (Some s) e b) ->
  NoDup (s :: blk e ++ blk b) -> (forall a, In a (s :: blk e ++ blk b) -> live o a = false) ->
  forall o', o_segs o' = upd (o_segs o) s (Some (mksegm 1 e errs b trees nn dir eof)) -> o_ress o' = o_ress o ->
  (forall a, cnt (o_live o') a = bit (Nat.eqb s a) + cnt (blk e) a + cnt (blk b) a + cnt (o_live o) a) ->
  orep o' (ledger_step w (OSegment errs trees nn dir eof (Some s) e b) (OStatus true))
    ((s, mksegm 1 e errs b trees nn dir eof) :: S) X.
Proof.
  intros o w S X errs trees nn dir eof s e b R [A1 A2] Hn Hf o' Es Er C. rewrite cnt_nodup in Hn, A1.
  assert (Hs : forall a, bit (Nat.eqb s a) + cnt (blk e) a + cnt (blk b) a <= 1).
  { intros a. specialize (Hn a). rewrite cnt_cons, cnt_app in Hn. unfold bit. lia. }
  assert (Hz : forall a, 0 < bit (Nat.eqb s a) + cnt (blk e) a + cnt (blk b) a -> cnt (o_live o) a = 0).
  { intros a H. apply not_live, Hf, cnt_in. rewrite cnt_cons, cnt_app. unfold bit in H. lia. }
  assert (Hg : forall a, 0 < cnt (given errs trees) a -> loose w a = true) by (intros a H; apply A2, cnt_in, H).
  cbn [ledger_step]. constructor; cbn [refs results loose].
  - intros a. rewrite C, held_cons, seg_cnt, (or_live _ _ _ _ R). cbn [g_errs g_errors g_trees g_roots].
    specialize (A1 a). specialize (Hg a). rewrite given_cnt in *. rewrite inside_cnt, given_cnt.
    destruct (0 <? _) eqn:E.
    + apply Nat.ltb_lt in E. rewrite (Hg E). cbn [negb andb bit]. lia.
    + apply Nat.ltb_ge in E. cbn [negb andb]. lia.
  - intros a. rewrite C. specialize (Hs a). specialize (Hz a). pose proof (or_once _ _ _ _ R a). lia.
  - intros a. rewrite Es, upd_eq. cbn [lookup]. destruct (Nat.eqb s a); [reflexivity|apply (or_segs _ _ _ _ R)].
  - intros a. rewrite Er. apply (or_ress _ _ _ _ R).
  - intros a. rewrite put_eq. cbn [lookup]. destruct (Nat.eqb s a); [reflexivity|apply (or_refs _ _ _ _ R)].
  - apply (or_results _ _ _ _ R).
  - intros a g [E|H]; [injection E as <- <-; cbn; split; reflexivity|]. now apply (or_small _ _ _ _ R a).
  - apply (or_cap _ _ _ _ R).
Qed.

(** failed allocations give back what they took *)
Lemma orep_same : forall o w S X o', orep o w S X -> o_segs o' = o_segs o -> o_ress o' = o_ress o ->
  (forall a, cnt (o_live o') a = cnt (o_live o) a) -> orep o' w S X.
Proof.
  intros o w S X o' R Es Er C. destruct R as [R1 R2 R3 R4 R5 R6 R7 R8]. constructor; auto; intros; rewrite ?C, ?Es, ?Er; auto.
Qed.

Lemma fail_ok : forall o l, (forall a, cnt (o_live o) a + cnt l a <= 1) ->
  exists o', free_all l (mkown (l ++ o_live o) (o_segs o) (o_ress o)) = Some o' /\ o_segs o' = o_segs o /\ o_ress o' = o_ress o /\
    forall a, cnt (o_live o') a = cnt (o_live o) a.
Proof.
  intros o l H. destruct (free_all_ok l (mkown (l ++ o_live o) (o_segs o) (o_ress o))) as (o' & E & S & R & C); cbn [o_live] in *.
  - intros a. rewrite cnt_app. specialize (H a). lia.
  - intros a. rewrite cnt_app. lia.
  - exists o'. split; [exact E|]. split; [exact S|]. split; [exact R|]. intros a. rewrite C, cnt_app. lia.
Qed.

Lemma segment_ok : forall o w S X errs trees nn dir eof m1 m2 m3, orep o w S X ->
  oallowed w (OSegment errs trees nn dir eof m1 m2 m3) -> ofresh o (OSegment errs trees nn dir eof m1 m2 m3) ->
  exists o' ok S', ostep o (OSegment errs trees nn dir eof m1 m2 m3) = Some (o', OStatus ok) /\
    orep o' (ledger_step w (OSegment errs trees nn dir eof m1 m2 m3) (OStatus ok)) S' X /\
    (ok = true -> exists s e b, m1 = Some s /\ S' = (s, mksegm 1 e errs b trees nn dir eof) :: S) /\
    (ok = false -> S' = S).
Proof.
  intros o w S X errs trees nn dir eof m1 m2 m3 R A [F1 F2]. cbn [ostep]. unfold seg_new.
  rewrite cnt_nodup in F1.
  assert (Hz : forall a, cnt (o_live o) a + cnt (blk m1 ++ blk m2 ++ blk m3) a <= 1).
  { intros a. specialize (F1 a). pose proof (or_once _ _ _ _ R a).
    destruct (Nat.eq_dec (cnt (blk m1 ++ blk m2 ++ blk m3) a) 0) as [E|E]; [lia|].
    assert (cnt (o_live o) a = 0) by (apply not_live, F2, cnt_in; lia). lia. }
  assert (Hfail : forall e o1, o_segs o1 = o_segs o -> o_ress o1 = o_ress o -> forall s, m1 = Some s -> (e = None \/ e = m2) ->
     (forall a, cnt (o_live o1) a = cnt (blk e) a + cnt [s] a + cnt (o_live o) a) ->
     exists o', free_all (blk e ++ [s]) o1 = Some o' /\ o_segs o' = o_segs o /\ o_ress o' = o_ress o /\ (forall a, cnt (o_live o') a = cnt (o_live o) a)).
  { intros e o1 Es Er s Hm He C.
    assert (Hb : forall a, cnt (blk e) a + cnt [s] a + cnt (o_live o) a <= 1).
    { intros a. specialize (Hz a). rewrite !cnt_app in Hz. rewrite Hm in Hz. cbn [blk] in Hz.
      destruct He as [-> | ->]; cbn [blk]; rewrite ?cnt_nil; lia. }
    destruct (free_all_ok (blk e ++ [s]) o1) as (o' & E & S1 & S2 & C').
    - intros a. rewrite C. apply Hb.
    - intros a. rewrite C, cnt_app. lia.
    - exists o'. split; [exact E|]. split; [congruence|]. split; [congruence|]. intros a. rewrite C', C, cnt_app. lia. }
  destruct m1 as [s|].
  2:{ exists o, false, S. split; [reflexivity|]. split; [exact R|]. split; [discriminate|reflexivity]. }
  assert (Hsub : forall e b, (e = None \/ e = m2) -> (b = None \/ b = m3) ->
     NoDup (s :: blk e ++ blk b) /\ forall a, In a (s :: blk e ++ blk b) -> live o a = false).
  { intros e b He Hb. split.
    - apply cnt_nodup. intros a. specialize (F1 a). rewrite cnt_cons, !cnt_app in *. change (blk (Some s)) with [s] in F1. rewrite cnt_cons, cnt_nil in F1.
      destruct He as [-> | ->], Hb as [-> | ->]; cbn [blk]; rewrite ?cnt_nil; lia.
    - intros a Ha. apply F2. cbn [blk app]. destruct Ha as [->|Ha]; [now left|]. right. rewrite in_app_iff in *.
      destruct He as [-> | ->], Hb as [-> | ->]; cbn [blk In] in *; tauto. }
  assert (Rest : forall e o1, (e = None \/ e = m2) -> o_segs o1 = o_segs o -> o_ress o1 = o_ress o ->
     (forall a, cnt (o_live o1) a = bit (Nat.eqb s a) + cnt (blk e) a + cnt (o_live o) a) ->
     exists o' ok S', (do (o, ok) <- match trees with
        | [] => Some (set_seg o1 s (Some (mksegm 1 e errs None trees nn dir eof)), true)
        | _ :: _ => match m3 with
                    | Some b => Some (set_seg (alloc b o1) s (Some (mksegm 1 e errs (Some b) trees nn dir eof)), true)
                    | None => do o <- free_all (blk e ++ [s]) o1; Some (o, false)
                    end
        end; Some (o, OStatus ok)) = Some (o', OStatus ok) /\
      orep o' (ledger_step w (OSegment errs trees nn dir eof (Some s) m2 m3) (OStatus ok)) S' X /\
      (ok = true -> exists s' e b, Some s = Some s' /\ S' = (s', mksegm 1 e errs b trees nn dir eof) :: S) /\
      (ok = false -> S' = S)).
  { intros e o1 He Es Er C. destruct trees as [|t trees].
    - cbn [obind]. eexists _, true, _. split; [reflexivity|]. split; [|split; [intros _; eexists s, e, None; split; [reflexivity|]; reflexivity|discriminate]].
      change (ledger_step w (OSegment errs [] nn dir eof (Some s) m2 m3) (OStatus true)) with
        (ledger_step w (OSegment errs [] nn dir eof (Some s) e None) (OStatus true)).
      destruct (Hsub e None He (or_introl eq_refl)) as [K1 K2].
      apply orep_new with (o := o); auto.
      + cbn [set_seg o_segs]. now rewrite Es.
      + intros a. cbn [set_seg o_live blk]. rewrite C, cnt_nil. lia.
    - destruct m3 as [b|].
      + cbn [obind]. eexists _, true, _. split; [reflexivity|]. split; [|split; [intros _; eexists s, e, (Some b); split; [reflexivity|]; reflexivity|discriminate]].
        change (ledger_step w (OSegment errs (t :: trees) nn dir eof (Some s) m2 (Some b)) (OStatus true)) with
          (ledger_step w (OSegment errs (t :: trees) nn dir eof (Some s) e (Some b)) (OStatus true)).
        destruct (Hsub e (Some b) He (or_intror eq_refl)) as [K1 K2].
        apply orep_new with (o := o); auto.
        * cbn [set_seg o_segs alloc]. now rewrite Es.
        * intros a. cbn [set_seg o_live alloc]. rewrite cnt_cons, C, cnt_some. unfold bit. lia.
      + destruct (Hfail e o1 Es Er s eq_refl He) as (o' & E & E1 & E2 & C').
        { intros a. rewrite C, cnt_cons, cnt_nil. unfold bit. lia. }
        rewrite E. cbn [obind]. exists o', false, S. split; [reflexivity|]. split; [|split; [discriminate|reflexivity]].
        apply orep_same with (o := o); auto. }
  destruct errs as [|er errs].
  - destruct (Rest None (alloc s o)) as (o' & ok & S' & E & K); auto.
    { intros a. rewrite alloc_cnt. cbn [blk]. rewrite cnt_nil. lia. }
    exists o', ok, S'. split; [|exact K]. rewrite <- E. destruct trees, m3; reflexivity.
  - destruct m2 as [e|].
    + destruct (Rest (Some e) (alloc e (alloc s o))) as (o' & ok & S' & E & K); auto.
      { intros a. rewrite !alloc_cnt, cnt_some. lia. }
      exists o', ok, S'. split; [|exact K]. rewrite <- E. destruct trees, m3; reflexivity.
    + destruct (Hfail None (alloc s o) eq_refl eq_refl s eq_refl (or_introl eq_refl)) as (o' & E & E1 & E2 & C').
      { intros a. rewrite alloc_cnt. cbn [blk]. rewrite cnt_cons, !cnt_nil. unfold bit. lia. }
      rewrite E. cbn [obind]. exists o', false, S. split; [reflexivity|]. split; [|split; [discriminate|reflexivity]].
      apply orep_same with (o := o); auto.
Qed.

Lemma newres_ok : forall o w S X r, orep o w S X -> live o r = false ->
  orep (set_res (alloc r o) r (Some (mkresl None [] None [] 0 None [] 0 false))) (ledger_step w (OResult r) ODone) S
       ((r, mkresl None [] None [] 0 None [] 0 false) :: X).
Proof.
  intros o w S X r R Hf. apply not_live in Hf. constructor; cbn [set_res alloc o_live o_segs o_ress ledger_step refs results loose]; try apply R.
  - intros a. rewrite held_cons, res_cnt, cnt_cons. cbn. rewrite (or_live _ _ _ _ R a). unfold bit. lia.
  - intros a. rewrite cnt_cons. pose proof (or_once _ _ _ _ R a). destruct (Nat.eqb r a) eqn:E; [|lia]. apply Nat.eqb_eq in E. subst. lia.
  - intros a. rewrite upd_eq. cbn [lookup]. destruct (Nat.eqb r a); [reflexivity|apply (or_ress _ _ _ _ R)].
  - intros a. rewrite put_eq. cbn [lookup]. destruct (Nat.eqb r a); [reflexivity|apply (or_results _ _ _ _ R)].
  - intros a x [E|H]; [injection E as <- <-; cbn; lia|]. now apply (or_cap _ _ _ _ R a).
Qed.

(** ** Merging a segment into a result *)

Lemma orep_both : forall o w S X s g g' r x x' o', orep o w S X -> lookup s S = Some g -> lookup r X = Some x ->
  g_refcount g' = g_refcount g -> length (r_dirs x') <= r_dircap x' ->
  (forall b, o_segs o' b = if Nat.eqb s b then Some g' else o_segs o b) ->
  (forall b, o_ress o' b = if Nat.eqb r b then Some x' else o_ress o b) ->
  (forall a, cnt (o_live o') a <= 1) ->
  (forall a, cnt (o_live o') a + cnt (seg_frees s g) a + cnt (res_frees r x) a =
             cnt (o_live o) a + cnt (seg_frees s g') a + cnt (res_frees r x') a) ->
  orep o' w ((s, g') :: unlink s S) ((r, x') :: unlink r X).
Proof.
  intros o w S X s g g' r x x' o' R Hs Hr Hc Hd Es Er H1 C. constructor.
  - intros a. rewrite !held_cons. specialize (C a). rewrite (or_live _ _ _ _ R) in C.
    rewrite (held_unlink _ seg_frees s g S a Hs), (held_unlink _ res_frees r x X a Hr) in C. lia.
  - exact H1.
  - intros b. rewrite Es. cbn [lookup]. destruct (Nat.eqb s b) eqn:E; [reflexivity|].
    apply Nat.eqb_neq in E. rewrite lookup_unlink_other by congruence. apply (or_segs _ _ _ _ R).
  - intros b. rewrite Er. cbn [lookup]. destruct (Nat.eqb r b) eqn:E; [reflexivity|].
    apply Nat.eqb_neq in E. rewrite lookup_unlink_other by congruence. apply (or_ress _ _ _ _ R).
  - intros b. rewrite (or_refs _ _ _ _ R). cbn [lookup]. destruct (Nat.eqb s b) eqn:E.
    + apply Nat.eqb_eq in E. subst. now rewrite Hs, Hc.
    + apply Nat.eqb_neq in E. now rewrite lookup_unlink_other by congruence.
  - intros b. rewrite (or_results _ _ _ _ R). cbn [lookup]. destruct (Nat.eqb r b) eqn:E.
    + apply Nat.eqb_eq in E. subst. now rewrite Hr.
    + apply Nat.eqb_neq in E. now rewrite lookup_unlink_other by congruence.
  - intros b h [E|H].
    + injection E as <- <-. rewrite Hc. apply (or_small _ _ _ _ R s). now apply lookup_in.
    + apply in_unlink in H. now apply (or_small _ _ _ _ R b).
  - intros b h [E|H]; [now injection E as <- <-|]. apply in_unlink in H. now apply (or_cap _ _ _ _ R b).
Qed.

Lemma realloc_ok : forall o p a, (forall b, cnt (o_live o) b <= 1) -> (forall b, cnt (blk p) b <= cnt (o_live o) b) ->
  cnt (o_live o) a = 0 \/ p = Some a ->
  exists o', realloc_to p a o = Some o' /\ o_segs o' = o_segs o /\ o_ress o' = o_ress o /\
    (forall b, cnt (o_live o') b = cnt (o_live o) b - cnt (blk p) b + bit (Nat.eqb a b)) /\
    (forall b, cnt (o_live o') b <= 1).
Proof.
  intros o p a H1 H2 Ha. destruct (free_all_ok (blk p) o H1 H2) as (o1 & E & S & R & C). unfold realloc_to. rewrite E. cbn [obind].
  exists (alloc a o1). split; [reflexivity|]. split; [exact S|]. split; [exact R|].
  assert (K : forall b, cnt (o_live (alloc a o1)) b = cnt (o_live o) b - cnt (blk p) b + bit (Nat.eqb a b)) by (intros b; rewrite alloc_cnt, C; lia).
  split; [exact K|]. intros b. rewrite K. specialize (H1 b). specialize (H2 b). destruct (Nat.eqb a b) eqn:Eb; cbn [bit]; [|lia].
  apply Nat.eqb_eq in Eb. subst b. destruct Ha as [Ha| ->]; [lia|]. rewrite cnt_some, Nat.eqb_refl in *. cbn [bit] in *. lia.
Qed.

Lemma res_hold : forall o w S X r x a, orep o w S X -> lookup r X = Some x -> cnt (res_frees r x) a <= cnt (o_live o) a.
Proof. intros o w S X r x a R H. rewrite (or_live _ _ _ _ R), (held_unlink _ res_frees r x X a H). lia. Qed.

(** what a merge leaves behind *)
Definition merged (ok : bool) (g g' : segm) (x x' : resl) : Prop :=
  r_errs x' ++ g_errs g' = r_errs x ++ g_errs g /\
  r_trees x' ++ g_trees g' = r_trees x ++ g_trees g /\
  (ok = true -> g_errs g' = [] /\ g_trees g' = [] /\ g_directive g' = None /\
     r_nnodes x' = r_nnodes x + g_nnodes g /\ r_dirs x' = r_dirs x ++ (match g_directive g with Some d => [d] | None => [] end)).

Lemma merge_ok : forall o w S X r s m1 m2 m3, orep o w S X -> oallowed w (OMerge r s m1 m2 m3) -> ofresh o (OMerge r s m1 m2 m3) ->
  exists o' ok g g' x x', ostep o (OMerge r s m1 m2 m3) = Some (o', OStatus ok) /\
    lookup s S = Some g /\ lookup r X = Some x /\ merged ok g g' x x' /\
    orep o' w ((s, g') :: unlink s S) ((r, x') :: unlink r X).
Proof.
  intros o w S X r s m1 m2 m3 R [A1 A2] (F0 & F1 & F2 & F3).
  destruct (get_seg_ok o w S X s R A1) as (g & Hs & Hg & _ & _).
  destruct (get_res_ok o w S X r R A2) as (x & Hr & Hx).
  pose proof (or_cap _ _ _ _ R r x (lookup_in _ _ _ _ Hr)) as Hcap.
  assert (Hrx : o_ress o r = Some x) by now rewrite (or_ress _ _ _ _ R).
  assert (Hsg : o_segs o s = Some g) by now rewrite (or_segs _ _ _ _ R).
  assert (G1 : forall a, m1 = Some a -> cnt (o_live o) a = 0 \/ r_errors x = Some a).
  { intros a H. destruct (F1 x a Hrx H); [left; now apply not_live|now right]. }
  assert (G2 : forall a, m2 = Some a -> cnt (o_live o) a = 0 \/ r_roots x = Some a).
  { intros a H. destruct (F2 x a Hrx H); [left; now apply not_live|now right]. }
  assert (G3 : forall a, m3 = Some a -> cnt (o_live o) a = 0 \/ r_directives x = Some a).
  { intros a H. destruct (F3 x a Hrx H); [left; now apply not_live|now right]. }
  assert (N12 : forall a, m1 = Some a -> m2 = Some a -> False).
  { intros a -> ->. cbn in F0. inversion F0; subst. apply H1. now left. }
  assert (N13 : forall a, m1 = Some a -> m3 = Some a -> False).
  { intros a -> ->. cbn in F0. inversion F0; subst. apply H1. apply in_or_app. right. now left. }
  assert (N23 : forall a, m2 = Some a -> m3 = Some a -> False).
  { intros a -> ->. destruct m1; cbn in F0; inversion F0; subst; [inversion H2; subst; apply H3; now left|apply H1; now left]. }
  clear F0 F1 F2 F3. cbn [ostep]. unfold res_merge. rewrite Hg. cbn [obind]. rewrite Hx. cbn [obind].
  set (x0 := mkresl _ _ _ _ _ _ _ _ _). set (o0 := set_res o r (Some x0)).
  (* a state reached on the way *)
  set (Mid := fun o1 x1 g1 => o_segs o1 s = Some g1 /\ o_ress o1 r = Some x1 /\
     (forall b, o_segs o1 b = if Nat.eqb s b then Some g1 else o_segs o b) /\
     (forall b, o_ress o1 b = if Nat.eqb r b then Some x1 else o_ress o b) /\
     (forall a, cnt (o_live o1) a <= 1) /\
     (forall a, cnt (o_live o1) a + cnt (seg_frees s g) a + cnt (res_frees r x) a =
                cnt (o_live o) a + cnt (seg_frees s g1) a + cnt (res_frees r x1) a) /\
     g_refcount g1 = g_refcount g /\ g_nnodes g1 = g_nnodes g /\ g_directive g1 = g_directive g /\
     r_errs x1 ++ g_errs g1 = r_errs x ++ g_errs g /\ r_trees x1 ++ g_trees g1 = r_trees x ++ g_trees g /\
     r_nnodes x1 = r_nnodes x /\ r_dirs x1 = r_dirs x /\ r_dircap x1 = r_dircap x /\ r_directives x1 = r_directives x).
  assert (Hold : forall o1 x1 g1 p, Mid o1 x1 g1 -> (forall a, cnt (blk p) a <= cnt (res_frees r x1) a) -> forall a, cnt (blk p) a <= cnt (o_live o1) a).
  { intros o1 x1 g1 p M H a. destruct M as (_ & _ & _ & _ & _ & C & _). specialize (C a). specialize (H a).
    pose proof (or_live _ _ _ _ R a) as L. rewrite (held_unlink _ seg_frees s g S a Hs), (held_unlink _ res_frees r x X a Hr) in L. lia. }
  assert (M0 : Mid o0 x0 g).
  { unfold Mid, o0. cbn [set_res o_segs o_ress o_live]. split; [exact Hsg|]. split; [now rewrite upd_eq, Nat.eqb_refl|].
    split. { intros b. destruct (Nat.eqb s b) eqn:E; [apply Nat.eqb_eq in E; now subst|reflexivity]. }
    split; [reflexivity|]. split; [apply (or_once _ _ _ _ R)|]. split; [intros a; reflexivity|]. repeat (split; [reflexivity|]). reflexivity. }
  (* errors *)
  match goal with |- context [match g_errs g with [] => ?n | _ :: _ => ?c end] =>
    assert (P1 : exists o1 x1 g1 ok, match g_errs g with [] => n | _ :: _ => c end = Some (o1, x1, g1, ok) /\ Mid o1 x1 g1 /\
      (ok = true -> g_errs g1 = []) /\ g_trees g1 = g_trees g /\ r_roots x1 = r_roots x /\
      (forall a, cnt (o_live o1) a <= cnt (o_live o) a + cnt (blk m1) a)) end.
  { destruct (g_errs g) as [|e0 es] eqn:Ee.
    { exists o0, x0, g, true. split; [reflexivity|]. split; [exact M0|]. split; [auto|]. split; [reflexivity|]. split; [reflexivity|]. intros a. unfold o0. cbn [set_res o_live]. lia. }
    destruct m1 as [a|].
    2:{ exists o0, x0, g, false. split; [reflexivity|]. split; [exact M0|]. split; [discriminate|]. split; [reflexivity|]. split; [reflexivity|]. intros a. unfold o0. cbn [set_res o_live]. lia. }
    destruct (realloc_ok o0 (r_errors x0) a) as (o1 & E & S1 & S2 & C & C1).
    { apply (or_once _ _ _ _ R). }
    { apply (Hold o0 x0 g); [exact M0|]. intros b. rewrite res_cnt. lia. }
    { exact (G1 a eq_refl). }
    rewrite E. cbn [obind]. eexists _, _, _, true. split; [reflexivity|].
    split; [|split; [reflexivity|split; [reflexivity|split; [reflexivity|]]]].
    2:{ intros b. cbn [set_seg set_res o_live]. rewrite C, cnt_some. unfold o0. cbn [set_res o_live]. lia. }
    unfold Mid. cbn [set_seg set_res o_segs o_ress o_live]. rewrite !upd_eq, !Nat.eqb_refl.
    split; [reflexivity|]. split; [reflexivity|]. split. { intros b. rewrite upd_eq, S1. reflexivity. }
    split. { intros b. rewrite upd_eq, S2. unfold o0. cbn [set_res o_ress]. rewrite upd_eq. destruct (Nat.eqb r b); reflexivity. }
    split; [exact C1|]. split.
    { intros b. rewrite C, !seg_cnt, !res_cnt. cbn [g_errs g_errors g_trees g_roots r_errs r_errors r_trees r_roots r_directives x0].
      rewrite <- Ee. unfold errs_frees. rewrite flat_map_app, cnt_app, cnt_some. cbn [flat_map]. rewrite cnt_nil.
      pose proof (Hold o0 x0 g (r_errors x0) M0) as Hh. specialize (fun H => Hh H b).
      assert (Hle : cnt (blk (r_errors x)) b <= cnt (o_live o0) b). { apply Hh. intros c. rewrite res_cnt. lia. }
      unfold o0 in *. cbn [set_res o_live] in *. lia. }
    cbn. repeat (split; [reflexivity|]). split; [now rewrite app_nil_r|]. repeat (split; [reflexivity|]). reflexivity. }
  destruct P1 as (o1 & x1 & g1 & ok1 & E1 & M1 & K1 & K1' & K1r & L1). rewrite E1. cbn [obind]. clear E1.
  assert (Stop : forall o1 x1 g1, Mid o1 x1 g1 -> exists o' ok g0 g' x2 x',
     (do (o, ok) <- Some (o1, false); Some (o, OStatus ok)) = Some (o', OStatus ok) /\
     lookup s S = Some g0 /\ lookup r X = Some x2 /\ merged ok g0 g' x2 x' /\
     orep o' w ((s, g') :: unlink s S) ((r, x') :: unlink r X)).
  { intros o2 x2 g2 M. exists o2, false, g, g2, x, x2. split; [reflexivity|]. split; [exact Hs|]. split; [exact Hr|].
    destruct M as (V1 & V2 & V3 & V4 & V5 & V6 & V7 & V8 & V9 & V10 & V11 & V12 & V13 & V14 & V15). split.
    { unfold merged. split; [exact V10|]. split; [exact V11|discriminate]. }
    apply orep_both with (o := o) (g := g) (x := x); auto. rewrite V13, V14. exact Hcap. }
  destruct ok1; cbn [negb]; [|apply (Stop o1 x1 g1 M1)]. specialize (K1 eq_refl).
  (* roots *)
  match goal with |- context [match g_trees g1 with [] => ?n | _ :: _ => ?c end] =>
    assert (P2 : exists o2 x2 g2 ok, match g_trees g1 with [] => n | _ :: _ => c end = Some (o2, x2, g2, ok) /\ Mid o2 x2 g2 /\
      (ok = true -> g_trees g2 = []) /\ g_errs g2 = [] /\ (forall a, cnt (o_live o2) a <= cnt (o_live o) a + cnt (blk m1) a + cnt (blk m2) a)) end.
  { destruct (g_trees g1) as [|e0 es] eqn:Ee.
    { exists o1, x1, g1, true. split; [reflexivity|]. split; [exact M1|]. split; [auto|]. split; [exact K1|]. intros a. specialize (L1 a). lia. }
    destruct m2 as [a|].
    2:{ exists o1, x1, g1, false. split; [reflexivity|]. split; [exact M1|]. split; [discriminate|]. split; [exact K1|]. intros a. specialize (L1 a). lia. }
    destruct (realloc_ok o1 (r_roots x1) a) as (o2 & E & S1 & S2 & C & C1).
    { apply M1. }
    { apply (Hold o1 x1 g1); [exact M1|]. intros b. rewrite res_cnt. lia. }
    { rewrite K1r. destruct (G2 a eq_refl) as [H|H]; [left|now right]. specialize (L1 a).
      assert (cnt (blk m1) a = 0); [|lia]. destruct m1 as [b|]; [|reflexivity]. rewrite cnt_some.
      rewrite (proj2 (Nat.eqb_neq b a)); [reflexivity|]. intros ->. exact (N12 a eq_refl eq_refl). }
    rewrite E. cbn [obind]. eexists _, _, _, true. split; [reflexivity|].
    split; [|split; [reflexivity|split; [exact K1|]]].
    2:{ intros b. cbn [set_seg set_res o_live]. rewrite C, cnt_some. specialize (L1 b). lia. }
    pose proof (Hold o1 x1 g1 (r_roots x1) M1) as Hh.
    destruct M1 as (V1 & V2 & V3 & V4 & V5 & V6 & V7 & V8 & V9 & V10 & V11 & V12 & V13 & V14 & V15).
    unfold Mid. cbn [set_seg set_res o_segs o_ress o_live]. rewrite !upd_eq, !Nat.eqb_refl.
    split; [reflexivity|]. split; [reflexivity|]. split. { intros b. rewrite upd_eq, S1, V3. destruct (Nat.eqb s b); reflexivity. }
    split. { intros b. rewrite upd_eq, S2, V4. destruct (Nat.eqb r b); reflexivity. }
    split; [exact C1|]. split.
    { intros b. specialize (V6 b). rewrite !seg_cnt, !res_cnt in V6 |- *. rewrite C. cbn [g_errs g_errors g_trees g_roots r_errs r_errors r_trees r_roots r_directives].
      rewrite <- Ee. rewrite flat_map_app, cnt_app, cnt_some. cbn [flat_map]. rewrite cnt_nil.
      specialize (fun H => Hh H b).
      assert (Hle : cnt (blk (r_roots x1)) b <= cnt (o_live o1) b). { apply Hh. intros c. rewrite res_cnt. lia. }
      lia. }
    cbn. rewrite <- Ee, app_nil_r. repeat (split; [assumption|]). assumption. }
  destruct P2 as (o2 & x2 & g2 & ok2 & E2 & M2 & K2 & K2' & L2). rewrite E2. cbn [obind]. clear E2.
  destruct ok2; cbn [negb]; [|apply (Stop o2 x2 g2 M2)]. specialize (K2 eq_refl).
  pose proof (Hold o2 x2 g2 (r_directives x2) M2) as Hh.
  pose proof M2 as (V1 & V2 & V3 & V4 & V5 & V6 & V7 & V8 & V9 & V10 & V11 & V12 & V13 & V14 & V15).
  set (x3 := mkresl _ _ _ _ _ _ _ _ _).
  assert (Hfin : forall o4 x4 g4 okk, (forall b, o_segs o4 b = if Nat.eqb s b then Some g4 else o_segs o b) ->
     (forall b, o_ress o4 b = if Nat.eqb r b then Some x4 else o_ress o b) ->
     g_refcount g4 = g_refcount g -> length (r_dirs x4) <= r_dircap x4 -> (forall a, cnt (o_live o4) a <= 1) ->
     (forall a, cnt (o_live o4) a + cnt (seg_frees s g) a + cnt (res_frees r x) a =
                cnt (o_live o) a + cnt (seg_frees s g4) a + cnt (res_frees r x4) a) ->
     merged okk g g4 x x4 ->
     exists o' ok g0 g' x2 x',
     (do (o, ok) <- Some (o4, okk); Some (o, OStatus ok)) = Some (o', OStatus ok) /\
     lookup s S = Some g0 /\ lookup r X = Some x2 /\ merged ok g0 g' x2 x' /\
     orep o' w ((s, g') :: unlink s S) ((r, x') :: unlink r X)).
  { intros o4 x4 g4 ok H1 H2 H3 H4 H5 H6 H7. exists o4, ok, g, g4, x, x4. split; [reflexivity|]. split; [exact Hs|]. split; [exact Hr|].
    split; [exact H7|]. apply orep_both with (o := o) (g := g) (x := x); auto. }
  assert (C3 : forall a, cnt (res_frees r x3) a = cnt (res_frees r x2) a) by (intros a; reflexivity).
  destruct (g_directive g2) as [d|] eqn:Ed.
  2:{ apply (Hfin _ x3 g2 true); cbn [set_res o_segs o_ress o_live]; auto.
      - intros b. rewrite upd_eq, V4. destruct (Nat.eqb r b); reflexivity.
      - cbn [x3 r_dirs r_dircap]. now rewrite V13, V14.
      - split; [exact V10|]. split; [exact V11|]. intros _. rewrite <- V9. cbn [x3 r_nnodes r_dirs].
        rewrite V12, V8, V13, app_nil_r. auto. }
  cbn [x3 r_dirs r_dircap]. rewrite V13, V14, (proj2 (Nat.leb_le _ _) Hcap). cbn [negb].
  destruct (r_dircap x <=? length (r_dirs x)) eqn:El.
  - apply Nat.leb_le in El. destruct m3 as [a|].
    + destruct (realloc_ok (set_res o2 r (Some x3)) (r_directives x3) a) as (o4 & E & S1 & S2 & C & C1).
      { exact V5. }
      { apply Hh. intros b. rewrite res_cnt. lia. }
      { cbn [x3 r_directives set_res o_live]. rewrite V15. destruct (G3 a eq_refl) as [H|H]; [left|now right]. specialize (L2 a).
        assert (cnt (blk m1) a = 0 /\ cnt (blk m2) a = 0); [|lia]. split.
        - destruct m1 as [b|]; [|reflexivity]. rewrite cnt_some.
          rewrite (proj2 (Nat.eqb_neq b a)); [reflexivity|]. intros ->. exact (N13 a eq_refl eq_refl).
        - destruct m2 as [b|]; [|reflexivity]. rewrite cnt_some.
          rewrite (proj2 (Nat.eqb_neq b a)); [reflexivity|]. intros ->. exact (N23 a eq_refl eq_refl). }
      rewrite E. cbn [obind negb]. eapply Hfin with (x4 := mkresl (r_errors x3) (r_errs x3) (r_roots x3) (r_trees x3) (r_nnodes x3) (Some a) (r_dirs x ++ [d])
         (if r_dircap x =? 0 then 8 else r_dircap x * 2) (r_eof x3)) (g4 := mksegm (g_refcount g2) (g_errors g2) (g_errs g2) (g_roots g2) (g_trees g2) (g_nnodes g2) None (g_eof g2)).
      * intros b. cbn [set_seg set_res o_segs]. rewrite upd_eq, S1. cbn [set_res o_segs]. rewrite V3. destruct (Nat.eqb s b); reflexivity.
      * intros b. cbn [set_seg set_res o_ress]. rewrite !upd_eq, S2. cbn [set_res o_ress]. rewrite upd_eq, V4. destruct (Nat.eqb r b); reflexivity.
      * exact V7.
      * cbn [r_dirs r_dircap]. rewrite app_length. cbn [length]. destruct (r_dircap x =? 0) eqn:Ez; [apply Nat.eqb_eq in Ez|apply Nat.eqb_neq in Ez]; lia.
      * exact C1.
      * intros b. specialize (V6 b). cbn [set_seg set_res o_live]. rewrite C. cbn [set_res o_live].
        specialize (fun H => Hh H b).
        assert (Hle : cnt (blk (r_directives x2)) b <= cnt (o_live o2) b). { apply Hh. intros c. rewrite res_cnt. lia. }
        rewrite !seg_cnt, !res_cnt in V6 |- *. cbn [g_errs g_errors g_trees g_roots r_errs r_errors r_trees r_roots r_directives x3]. rewrite cnt_some. lia.
      * split; [exact V10|]. split; [exact V11|]. intros _. cbn [r_nnodes r_dirs g_errs g_trees g_directive]. rewrite <- V9. cbn [x3 r_nnodes].
        rewrite V12, V8. auto.
    + cbn [obind negb]. apply (Hfin _ x3 g2 false); cbn [set_res o_segs o_ress o_live]; auto.
      * intros b. rewrite upd_eq, V4. destruct (Nat.eqb r b); reflexivity.
      * cbn [x3 r_dirs r_dircap]. now rewrite V13, V14.
      * split; [exact V10|]. split; [exact V11|]. discriminate.
  - apply Nat.leb_gt in El. cbn [obind negb]. cbn [x3 r_dirs r_dircap]. eapply Hfin with (x4 := mkresl (r_errors x3) (r_errs x3) (r_roots x3) (r_trees x3) (r_nnodes x3) (r_directives x3) (r_dirs x2 ++ [d])
       (r_dircap x2) (r_eof x3)) (g4 := mksegm (g_refcount g2) (g_errors g2) (g_errs g2) (g_roots g2) (g_trees g2) (g_nnodes g2) None (g_eof g2)).
    + intros b. cbn [set_seg set_res o_segs]. rewrite upd_eq, V3. destruct (Nat.eqb s b); reflexivity.
    + intros b. cbn [set_seg set_res o_ress]. rewrite !upd_eq, V4. destruct (Nat.eqb r b); reflexivity.
    + exact V7.
    + cbn [r_dirs r_dircap]. rewrite V13, V14, app_length. cbn [length]. lia.
    + exact V5.
    + intros b. specialize (V6 b). cbn [set_seg set_res o_live].
      rewrite !seg_cnt, !res_cnt in V6 |- *. cbn [g_errs g_errors g_trees g_roots r_errs r_errors r_trees r_roots r_directives x3]. lia.
    + split; [exact V10|]. split; [exact V11|]. intros _. cbn [r_nnodes r_dirs g_errs g_trees g_directive]. rewrite <- V9. cbn [x3 r_nnodes].
      rewrite V12, V8, V13. auto.
Qed.

(** ** Histories *)

Lemma ostep_ok : forall o w S X p, orep o w S X -> oallowed w p -> ofresh o p ->
  exists o' r S' X', ostep o p = Some (o', r) /\ orep o' (ledger_step w p r) S' X'.
Proof.
  intros o w S X p R A F. destruct p.
  - destruct F as [F1 F2]. eexists _, _, _, _. split; [reflexivity|]. exact (allocs_ok o w S X l R F1 F2).
  - destruct (segment_ok o w S X errs trees nnodes dir eof m1 m2 m3 R A F) as (o' & ok & S' & E & R' & _). eauto 6.
  - destruct (retain_ok o w S X s R A) as (o' & S' & E & _ & R'). eauto 6.
  - destruct (release_ok o w S X s R A) as (o' & g & S' & _ & E & _ & _ & R'). eauto 6.
  - destruct (get_seg_ok o w S X s R A) as (g & _ & Hg & _). cbn [ostep]. rewrite Hg. cbn [obind]. eexists _, _, _, _. split; [reflexivity|exact R].
  - eexists _, _, _, _. split; [reflexivity|]. exact (newres_ok o w S X r R F).
  - destruct (merge_ok o w S X r s m1 m2 m3 R A F) as (o' & ok & g & g' & x & x' & E & _ & _ & _ & R'). eauto 6.
  - destruct (get_res_ok o w S X r R A) as (x & _ & Hg). cbn [ostep]. rewrite Hg. cbn [obind]. eexists _, _, _, _. split; [reflexivity|exact R].
  - destruct (resfree_ok o w S X r R A) as (o' & x & X' & _ & E & _ & _ & R'). eauto 6.
Qed.

Lemma orun_ok : forall l o w S X, orep o w S X -> good_run o w l ->
  exists o' rs S' X', orun o l = Some (o', rs) /\ orep o' (ledger_run w l rs) S' X'.
Proof.
  induction l as [|p l IH]; intros o w S X R G.
  - exists o, [], S, X. auto.
  - destruct G as (A & F & G). destruct (ostep_ok o w S X p R A F) as (o1 & r & S1 & X1 & E & R1). cbn [orun]. rewrite E in *.
    cbn [obind]. destruct (IH o1 _ S1 X1 R1 G) as (o2 & rs & S2 & X2 & E2 & R2). rewrite E2. cbn [obind]. eauto 8.
Qed.

Lemma orep0 : orep own0 ledger0 [] [].
Proof. constructor; cbn; auto; intros ? ? []. Qed.

Lemma good_app : forall l l' o w o' rs, good_run o w (l ++ l') -> orun o l = Some (o', rs) ->
  good_run o w l /\ good_run o' (ledger_run w l rs) l'.
Proof.
  induction l as [|p l IH]; intros l' o w o' rs G E.
  - cbn in E. injection E as <- <-. split; [exact I|exact G].
  - cbn [app good_run orun] in *. destruct G as (A & F & G). destruct (ostep o p) as [[o1 r]|]; [|discriminate]. cbn [obind] in E.
    destruct (orun o1 l) as [[o2 rs2]|] eqn:E2; [|discriminate]. cbn [obind] in E. injection E as <- <-.
    destruct (IH l' o1 _ o2 rs2 G E2) as [G1 G2]. cbn [ledger_run]. auto.
Qed.

Lemma good_prefix : forall l l' o w, good_run o w (l ++ l') -> good_run o w l.
Proof.
  induction l as [|p l IH]; intros l' o w G; [exact I|]. cbn [app good_run] in *. destruct G as (A & F & G).
  split; [exact A|]. split; [exact F|]. destruct (ostep o p) as [[o1 r]|]; [|exact I]. eauto.
Qed.

(** what the accessors of a segment return *)
Definition view (g : segm) := (g_errs g, g_trees g, g_nnodes g, g_directive g, g_eof g).

Lemma free_all_segs : forall l o o', free_all l o = Some o' -> o_segs o' = o_segs o.
Proof.
  induction l as [|a l IH]; intros o o' E; cbn [free_all] in E; [now injection E as <-|]. unfold free in E.
  destruct (live o a); [|discriminate]. cbn [obind] in E. now apply IH in E.
Qed.

Definition leaves (s : addr) (p : oop) : Prop :=
  match p with
  | OMerge _ s' _ _ _ => s' <> s
  | OSegment _ _ _ _ _ m1 _ _ => m1 <> Some s
  | _ => True
  end.

Lemma realloc_segs : forall p a o o', realloc_to p a o = Some o' -> o_segs o' = o_segs o.
Proof.
  intros p a o o' E. unfold realloc_to in E. destruct (free_all (blk p) o) as [o1|] eqn:E1; [|discriminate]. cbn [obind] in E.
  injection E as <-. apply free_all_segs in E1. exact E1.
Qed.

Lemma merge_segs : forall r s' m1 m2 m3 o o' ok s, s' <> s -> res_merge r s' m1 m2 m3 o = Some (o', ok) -> o_segs o' s = o_segs o s.
Proof.
  intros r s' m1 m2 m3 o o' ok s Hs E. unfold res_merge in E.
  destruct (get_seg o s') as [g|]; [|discriminate]. cbn [obind] in E. destruct (get_res o r) as [x|]; [|discriminate]. cbn [obind] in E.
  assert (Hu : forall (f : addr -> option segm) v, upd f s' v s = f s).
  { intros f v. rewrite upd_eq. now rewrite (proj2 (Nat.eqb_neq s' s)). }
  match type of E with obind ?q _ = _ => destruct q as [[[[o1 x1] g1] ok1]|] eqn:E1; [|discriminate] end. cbn [obind] in E.
  assert (K1 : o_segs o1 s = o_segs o s).
  { destruct (g_errs g); [now injection E1 as <- <- <- <-|]. destruct m1 as [a|]; [|now injection E1 as <- <- <- <-].
    match type of E1 with obind ?q _ = _ => destruct q as [o2|] eqn:E2; [|discriminate] end. cbn [obind] in E1. injection E1 as <- <- <- <-.
    apply realloc_segs in E2. cbn [set_seg set_res o_segs]. rewrite Hu, E2. reflexivity. }
  clear E1. destruct ok1; cbn [negb] in E; [|injection E as <- <-; exact K1].
  match type of E with obind ?q _ = _ => destruct q as [[[[o2 x2] g2] ok2]|] eqn:E1; [|discriminate] end. cbn [obind] in E.
  assert (K2 : o_segs o2 s = o_segs o s).
  { destruct (g_trees g1); [now injection E1 as <- <- <- <-|]. destruct m2 as [a|]; [|now injection E1 as <- <- <- <-].
    match type of E1 with obind ?q _ = _ => destruct q as [o3|] eqn:E2; [|discriminate] end. cbn [obind] in E1. injection E1 as <- <- <- <-.
    apply realloc_segs in E2. cbn [set_seg set_res o_segs]. rewrite Hu, E2. exact K1. }
  clear E1. destruct ok2; cbn [negb] in E; [|injection E as <- <-; exact K2].
  destruct (g_directive g2); [|injection E as <- <-; exact K2].
  match type of E with (if ?q then _ else _) = _ => destruct q; [discriminate|] end.
  match type of E with obind ?q _ = _ => destruct q as [[[o3 x3] ok3]|] eqn:E1; [|discriminate] end. cbn [obind] in E.
  assert (K3 : o_segs o3 s = o_segs o s).
  { match type of E1 with (if ?q then _ else _) = _ => destruct q; [|now injection E1 as <- <- <-] end.
    destruct m3 as [a|]; [|now injection E1 as <- <- <-].
    match type of E1 with obind ?q _ = _ => destruct q as [o4|] eqn:E2; [|discriminate] end. cbn [obind] in E1. injection E1 as <- <- <-.
    apply realloc_segs in E2. cbn [set_seg set_res o_segs]. rewrite E2. exact K2. }
  destruct ok3; cbn [negb] in E; injection E as <- <-; [|exact K3]. cbn [set_seg set_res o_segs]. now rewrite Hu.
Qed.

Lemma new_segs : forall errs trees nn dir eof m1 m2 m3 o o' ok s, m1 <> Some s ->
  seg_new errs trees nn dir eof m1 m2 m3 o = Some (o', ok) -> o_segs o' s = o_segs o s.
Proof.
  intros errs trees nn dir eof m1 m2 m3 o o' ok s Hm E. unfold seg_new in E. destruct m1 as [s'|]; [|now injection E as <- <-].
  assert (Hu : forall (f : addr -> option segm) v, upd f s' v s = f s).
  { intros f v. rewrite upd_eq. now rewrite (proj2 (Nat.eqb_neq s' s)) by congruence. }
  assert (Hf : forall e o1, (do o <- free_all (blk e ++ [s']) o1; Some (o, false)) = Some (o', ok) -> o_segs o1 = o_segs o -> o_segs o' s = o_segs o s).
  { intros e o1 H Ho. destruct (free_all (blk e ++ [s']) o1) as [o2|] eqn:E2; [|discriminate]. cbn [obind] in H. injection H as <- <-.
    apply free_all_segs in E2. congruence. }
  destruct errs as [|e0 errs], m2 as [e|], trees as [|t trees], m3 as [b|];
    try (injection E as <- <-; cbn [set_seg alloc o_segs]; now rewrite Hu); eapply Hf in E; auto.
Qed.

Lemma segs_step : forall o p o' r s g, ostep o p = Some (o', r) -> leaves s p -> o_segs o s = Some g ->
  match o_segs o' s with Some g' => view g' = view g | None => p = ORelease s end.
Proof.
  intros o p o' r s g E L Hg. destruct p; cbn [ostep leaves] in *.
  - injection E as <- <-. cbn [o_segs]. now rewrite Hg.
  - destruct (seg_new _ _ _ _ _ _ _ _ _) as [[o1 ok]|] eqn:E1; [|discriminate]. cbn [obind] in E. injection E as <- <-.
    rewrite (new_segs _ _ _ _ _ _ _ _ _ _ _ s L E1). now rewrite Hg.
  - unfold seg_retain in E. destruct (get_seg o s0) as [h|] eqn:Eh; [|discriminate]. cbn [obind] in E.
    destruct (_ <? _)%N; [|discriminate]. cbn [obind] in E. injection E as <- <-. cbn [set_seg o_segs]. rewrite upd_eq.
    destruct (Nat.eqb s0 s) eqn:Es; [|now rewrite Hg]. apply Nat.eqb_eq in Es. subst. unfold get_seg in Eh.
    destruct (live o s); [|discriminate]. rewrite Hg in Eh. now injection Eh as <-.
  - unfold seg_release in E. destruct (get_seg o s0) as [h|] eqn:Eh; [|discriminate]. cbn [obind] in E.
    destruct (negb _); [discriminate|]. destruct (_ <? _)%N.
    + cbn [obind] in E. injection E as <- <-. cbn [set_seg o_segs]. rewrite upd_eq.
      destruct (Nat.eqb s0 s) eqn:Es; [|now rewrite Hg]. apply Nat.eqb_eq in Es. subst. unfold get_seg in Eh.
      destruct (live o s); [|discriminate]. rewrite Hg in Eh. now injection Eh as <-.
    + destruct (free_all (seg_frees s0 h) o) as [o1|] eqn:E1; [|discriminate]. cbn [obind] in E. injection E as <- <-.
      cbn [set_seg o_segs]. rewrite upd_eq. apply free_all_segs in E1. rewrite E1, Hg.
      destruct (Nat.eqb s0 s) eqn:Es; [|reflexivity]. apply Nat.eqb_eq in Es. now subst.
  - destruct (get_seg o s0); [|discriminate]. cbn [obind] in E. injection E as <- <-. now rewrite Hg.
  - injection E as <- <-. cbn [set_res alloc o_segs]. now rewrite Hg.
  - destruct (res_merge _ _ _ _ _ _) as [[o1 ok]|] eqn:E1; [|discriminate]. cbn [obind] in E. injection E as <- <-.
    rewrite (merge_segs _ _ _ _ _ _ _ _ s L E1). now rewrite Hg.
  - destruct (get_res o r0); [|discriminate]. cbn [obind] in E. injection E as <- <-. now rewrite Hg.
  - unfold res_free in E. destruct (get_res o r0) as [h|]; [|discriminate]. cbn [obind] in E.
    destruct (free_all _ o) as [o1|] eqn:E1; [|discriminate]. cbn [obind] in E. injection E as <- <-.
    cbn [set_res o_segs]. apply free_all_segs in E1. rewrite E1. now rewrite Hg.
Qed.

Lemma refs_back : forall w p r s, leaves s p -> oallowed w p -> refs w s = 0%N -> refs (ledger_step w p r) s = 0%N.
Proof.
  intros w p r s L A H. destruct p; cbn [ledger_step leaves oallowed] in *; try exact H.
  - destruct m1 as [s'|]; [|exact H]. destruct r as [|[|]| | |]; try exact H. cbn [refs]. rewrite put_eq.
    now rewrite (proj2 (Nat.eqb_neq s' s)) by congruence.
  - cbn [refs]. rewrite put_eq. destruct (Nat.eqb s0 s) eqn:E; [|exact H]. apply Nat.eqb_eq in E. subst. lia.
  - cbn [refs]. rewrite put_eq. destruct (Nat.eqb s0 s) eqn:E; [|exact H]. apply Nat.eqb_eq in E. subst. lia.
Qed.

Lemma refs_back_run : forall l o w rs o' s, Forall (leaves s) l -> good_run o w l -> orun o l = Some (o', rs) ->
  refs w s = 0%N -> refs (ledger_run w l rs) s = 0%N.
Proof.
  induction l as [|p l IH]; intros o w rs o' s L G E H; [destruct rs; exact H|]. inversion L; subst.
  cbn [orun good_run] in *. destruct G as (A & F & G). destruct (ostep o p) as [[o1 r]|]; [|discriminate]. cbn [obind] in E.
  destruct (orun o1 l) as [[o2 rs2]|] eqn:E2; [|discriminate]. cbn [obind] in E. injection E as <- <-. cbn [ledger_run].
  apply (IH o1 _ rs2 o2 s H3 G E2). now apply refs_back.
Qed.

Lemma keep_run : forall l o w S X o' rs s g, orep o w S X -> good_run o w l -> orun o l = Some (o', rs) -> Forall (leaves s) l ->
  o_segs o s = Some g -> (0 < refs (ledger_run w l rs) s)%N ->
  exists g', get_seg o' s = Some g' /\ view g' = view g.
Proof.
  induction l as [|p l IH]; intros o w S X o' rs s g R G E L Hg Hr.
  - cbn in E. injection E as <- <-. cbn [ledger_run] in Hr. destruct (get_seg_ok o w S X s R Hr) as (h & Hl & Hh & _).
    rewrite (or_segs _ _ _ _ R), Hl in Hg. injection Hg as ->. eauto.
  - inversion L; subst. pose proof G as (A & F & G1). destruct (ostep_ok o w S X p R A F) as (o1 & r & S1 & X1 & E1 & R1).
    cbn [orun] in E. rewrite E1 in *. cbn [obind] in E. destruct (orun o1 l) as [[o2 rs2]|] eqn:E2; [|discriminate]. cbn [obind] in E.
    injection E as <- <-. cbn [ledger_run] in Hr. pose proof (segs_step o p o1 r s g E1 H1 Hg) as K.
    assert (Hr1 : (0 < refs (ledger_step w p r) s)%N).
    { destruct (N.eq_dec (refs (ledger_step w p r) s) 0) as [Z|Z]; [|lia].
      rewrite (refs_back_run l o1 _ rs2 o2 s H2 G1 E2 Z) in Hr. lia. }
    destruct (o_segs o1 s) as [g1|] eqn:Eg.
    + destruct (IH o1 _ S1 X1 o2 rs2 s g1 R1 G1 E2 H2 Eg Hr) as (g' & K1 & K2). exists g'. split; [exact K1|congruence].
    + rewrite (or_refs _ _ _ _ R1), <- (or_segs _ _ _ _ R1), Eg in Hr1. lia.
Qed.
