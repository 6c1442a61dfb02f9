(** * The nodes of a parse result are as documented *)
From Coq Require Import List Bool Arith ZArith NArith Lia Permutation.
From Verif Require Import Peg QuickModel CypherSyntax CypherGrammar CypherMatch AstTypes AstModel CypherExec CypherParse
  CypherSpec AstSpec NodeFacts CypherLoop CypherChain CypherRound SafeSpec NodeHeld Flow FlowSound FlowRun SafeProofs.
Import ListNotations.

Opaque parse_one cfuel.
Strategy expand [crun].

(** ** Ordinals do not matter *)
Definition same (y y' : node) : Prop := nid y' = nid y /\ nty y' = nty y.
Definition psame (kids' : list node) (p p' : aparam) : Prop :=
  match p, p' with
  | PN None, PN None => True
  | PN (Some y), PN (Some y') => same y y' /\ In y' kids'
  | PL l, PL l' => Forall2 (fun y y' => same y y' /\ In y' kids') l l'
  | PN _, _ | PL _, _ => False
  | _, _ => p' = p
  end.

Lemma partner : forall ks ks' y, Forall2 same ks ks' -> In y ks -> exists y', same y y' /\ In y' ks'.
Proof.
  intros ks ks' y H. induction H as [|a b ks ks' H _ IH]; intros Hin; [destruct Hin|].
  destruct Hin as [-> |Hin]; [exists b; split; [exact H|left; reflexivity]|].
  destruct (IH Hin) as [y' [A B]]. exists y'. split; [exact A|right; exact B].
Qed.

Lemma partners : forall ks ks' l, Forall2 same ks ks' -> (forall y, In y l -> In y ks) ->
  exists l', Forall2 (fun y y' => same y y' /\ In y' ks') l l'.
Proof.
  intros ks ks' l H. induction l as [|y l IH]; intros HI; [exists []; constructor|].
  destruct (partner ks ks' y H) as [y' A]; [apply HI; left; reflexivity|].
  destruct IH as [l' B]; [intros z Hz; apply HI; right; exact Hz|]. exists (y' :: l'). constructor; auto.
Qed.

Lemma translate : forall ks ks' ps, Forall2 same ks ks' ->
  (forall y, In (PN (Some y)) ps -> In y ks) -> (forall l y, In (PL l) ps -> In y l -> In y ks) ->
  exists ps', Forall2 (psame ks') ps ps'.
Proof.
  intros ks ks' ps H. induction ps as [|p ps IH]; intros H1 H2; [exists []; constructor|].
  destruct IH as [ps' HP]; [intros y Hy; apply H1; right; exact Hy|intros l y Hl Hy; apply (H2 l y); [right|]; assumption|].
  assert (exists p', psame ks' p p') as [p' Hp].
  { destruct p as [[y|]|l|x|x|x|x|x]; try (eexists; cbn; reflexivity).
    - destruct (partner ks ks' y H) as [y' A]; [apply H1; left; reflexivity|]. exists (PN (Some y')). exact A.
    - exists (PN None). exact I.
    - destruct (partners ks ks' l H) as [l' A]; [intros y Hy; apply (H2 l y); [left; reflexivity|exact Hy]|].
      exists (PL l'). exact A. }
  exists (p' :: ps'). constructor; assumption.
Qed.

(** ** Checks of constructors look at identities and types only *)
Lemma same_is_a : forall y y' t, same y y' -> is_a y' t = is_a y t.
Proof. intros y y' t [_ H]. unfold is_a. rewrite H. reflexivity. Qed.

Lemma same_ids : forall ks ks', Forall2 same ks ks' -> map nid ks' = map nid ks.
Proof. intros ks ks' H. induction H as [|a b ks ks' [H _] _ IH]; [reflexivity|]. cbn. congruence. Qed.

Lemma contains_ids : forall ks x, contains ks x = existsb (fun i => Nat.eqb i (nid x)) (map nid ks).
Proof. induction ks as [|k ks IH]; intros x; [reflexivity|]. cbn. rewrite <- IH. reflexivity. Qed.

Lemma same_contains : forall ks ks' y y', Forall2 same ks ks' -> same y y' -> contains ks' y' = contains ks y.
Proof. intros ks ks' y y' H [H1 _]. rewrite !contains_ids, (same_ids _ _ H), H1. reflexivity. Qed.

Section Ren.
Variables (ks ks' : list node).
Hypothesis HK : Forall2 same ks ks'.
Let R (y y' : node) : Prop := same y y' /\ In y' ks'.

Lemma ren_all : forall t l l', Forall2 R l l' -> all_a l' t = all_a l t.
Proof.
  intros t l l' H. induction H as [|a b l l' [H _] _ IH]; [reflexivity|]. unfold all_a in *. cbn.
  rewrite IH, (same_is_a _ _ t H). reflexivity.
Qed.

Lemma ren_firstn : forall l l' n, Forall2 R l l' -> Forall2 R (firstn n l) (firstn n l').
Proof.
  intros l l' n H. revert n. induction H; intros [|n]; cbn; constructor; auto.
Qed.

Lemma ren_pairs : forall t1 t2 n l l', List.length l <= n -> Forall2 R l l' -> pairs_a l' t1 t2 = pairs_a l t1 t2.
Proof.
  intros t1 t2. induction n as [|n IH]; intros l l' Hn H.
  - destruct H; [reflexivity|cbn in Hn; lia].
  - destruct H as [|a b l l' [H _] HL]; [reflexivity|]. destruct HL as [|a2 b2 l l' [H2 _] HL]; [reflexivity|].
    cbn [pairs_a]. rewrite (same_is_a _ _ t1 H), (same_is_a _ _ t2 H2). f_equal. apply IH; [cbn in Hn; lia|exact HL].
Qed.

Lemma ren_alternate : forall l l', Forall2 R l l' -> forall t1 t2, alternate l' ks' t1 t2 = alternate l ks t1 t2.
Proof.
  intros l l' H. induction H as [|a b l l' [H _] HL IH]; intros t1 t2; [reflexivity|].
  cbn [alternate]. rewrite (same_is_a _ _ t1 H), (same_contains _ _ _ _ HK H), IH. reflexivity.
Qed.

Lemma ren_nth : forall ps ps' k, Forall2 (psame ks') ps ps' ->
  match nth_error ps k, nth_error ps' k with
  | Some p, Some p' => psame ks' p p'
  | None, None => True
  | _, _ => False
  end.
Proof. intros ps ps' k H. revert k. induction H; intros [|k]; cbn; auto. apply IHForall2. Qed.

Lemma ren_length : forall (A B : Type) (P : A -> B -> Prop) l l', Forall2 P l l' -> List.length l' = List.length l.
Proof. intros A B P l l' H. induction H; cbn; congruence. Qed.

Lemma ren_check : forall ps ps' r, Forall2 (psame ks') ps ps' -> check ps' ks' r = check ps ks r.
Proof.
  intros ps ps' r H.
  assert (HL := ren_length _ _ _ _ _ HK).
  destruct r as [k t|k t|k t|k t|k t|k t|k|k|k|b k|k|k t1 t2|k t1 t2|k t1 t2|k|k t1 t2|o k]; unfold check;
    try (pose proof (ren_nth _ _ b H) as HB; destruct (nth_error ps b) as [[[]| | | | | |]|], (nth_error ps' b) as [[[]| | | | | |]|];
         try contradiction HB; cbn in HB; try discriminate HB);
    try (pose proof (ren_nth _ _ o H) as HB; destruct (nth_error ps o) as [[[]| | | | | |]|], (nth_error ps' o) as [[[]| | | | | |]|];
         try contradiction HB; cbn in HB; try discriminate HB);
    pose proof (ren_nth _ _ k H) as HN; destruct (nth_error ps k) as [[[]| | | | | |]|], (nth_error ps' k) as [[[]| | | | | |]|];
    try contradiction HN; cbn in HN; try discriminate HN; try reflexivity;
    try (injection HB as ->);
    try (injection HN as ->; try reflexivity);
    try (apply proj1 in HN; rewrite ?(same_is_a _ _ _ HN), ?(same_contains _ _ _ _ HK HN); reflexivity);
    try (rewrite ?(ren_all _ _ _ HN), ?HL, ?(ren_length _ _ _ _ _ HN); reflexivity);
    try (destruct HN; reflexivity).
  - cbv zeta. rewrite (ren_length _ _ _ _ _ HN), HL. f_equal. apply ren_all, ren_firstn, HN.
  - apply (ren_pairs _ _ _ _ _ (le_n _) HN).
  - apply ren_alternate, HN.
Qed.

Lemma ren_fields : forall ps ps', Forall2 (psame ks') ps ps' -> map to_field ps' = map to_field ps.
Proof.
  intros ps ps' H. induction H as [|p p' ps ps' H _ IH]; [reflexivity|]. cbn [map]. rewrite IH. f_equal.
  destruct p as [[y|]|l|x|x|x|x|x], p' as [[y'|]|l'|x'|x'|x'|x'|x']; cbn in H; try contradiction; try congruence; auto.
  - destruct H as [[H _] _]. cbn. rewrite H. reflexivity.
  - cbn. f_equal. clear - H. induction H as [|a b l l' [[H _] _] _ IH]; [reflexivity|]. cbn. congruence.
Qed.

Lemma ren_kinds : forall ps ps', Forall2 (psame ks') ps ps' -> map kind_of ps' = map kind_of ps.
Proof.
  intros ps ps' H. induction H as [|p p' ps ps' H _ IH]; [reflexivity|]. cbn [map]. rewrite IH. f_equal.
  destruct p as [[y|]|l|x|x|x|x|x], p' as [[y'|]|l'|x'|x'|x'|x'|x']; cbn in H; try contradiction; try congruence; auto.
Qed.

Lemma ren_child : forall y y', R y y' -> child_of ks' y'.
Proof. intros y y' [_ H]. exists y'. auto. Qed.

Lemma ren_typed : forall ts y y', R y y' -> typed ts y -> typed ts y'.
Proof. intros ts y y' [[_ H] _] [t [A B]]. exists t. rewrite H. auto. Qed.

Lemma ren_back : forall l l' x, Forall2 R l l' -> In x l' -> exists y, In y l /\ R y x.
Proof.
  intros l l' x H. induction H as [|a b l l' H _ IH]; intros Hin; [destruct Hin|].
  destruct Hin as [<- |Hin]; [exists a; split; [left; reflexivity|exact H]|].
  destruct (IH Hin) as [y [A B]]. exists y. split; [right; exact A|exact B].
Qed.

Lemma ren_back_nth : forall l l' x i, Forall2 R l l' -> nth_error l' i = Some x -> exists y, nth_error l i = Some y /\ R y x.
Proof.
  intros l l' x i H. revert i. induction H as [|a b l l' H _ IH]; intros [|i] E; cbn in E; try discriminate.
  - injection E as <-. exists a. auto.
  - exact (IH i E).
Qed.

Lemma ren_meets : forall d p p', psame ks' p p' -> meets true ks d p -> meets true ks' d p'.
Proof.
  intros d p p' H.
  destruct p as [[y|]|l|x|x|x|x|x], p' as [[y'|]|l'|x'|x'|x'|x'|x']; cbn in H; try contradiction; try discriminate H;
    try (injection H as ->); destruct d; cbn; auto.
  - intros [x [E [T _]]]. injection E as <-. exists y'. split; [reflexivity|]. split; [eapply ren_typed; eauto|eapply ren_child; eauto].
  - intros K x E. injection E as <-. destruct (K y eq_refl) as [T _]. split; [eapply ren_typed; eauto|eapply ren_child; eauto].
  - intros [x [E _]]. discriminate.
  - intros K x E. discriminate.
  - intros K x Hx. destruct (ren_back _ _ _ H Hx) as [y [A B]]. destruct (K y A) as [T _].
    split; [eapply ren_typed; eauto|intros; eapply ren_child; eauto].
  - intros K x Hx _. destruct (ren_back _ _ _ H Hx) as [y [A B]]. eapply ren_child; eauto.
  - intros K i x Hx. destruct (ren_back_nth _ _ _ _ H Hx) as [y [A B]]. destruct (K i y A) as [T _].
    split; [eapply ren_typed; eauto|intros; eapply ren_child; eauto].
  - intros [L K]. rewrite (ren_length _ _ _ _ _ H). split; [exact L|]. intros i x Hx.
    destruct (ren_back_nth _ _ _ _ H Hx) as [y [A B]]. destruct (K i y A) as [T _].
    split; [eapply ren_typed; eauto|eapply ren_child; eauto].
Qed.
End Ren.

Lemma documented_same : forall x x', nid x' = nid x -> nty x' = nty x -> nrng x' = nrng x -> nflds x' = nflds x ->
  Forall2 same (nkids x) (nkids x') -> as_documented x -> as_documented x'.
Proof.
  intros x x' E1 E2 E3 E4 HK [ps [ds [H1 [H2 [H3 [H4 [H5 [H6 H7]]]]]]]].
  destruct (translate _ _ ps HK H2 H3) as [ps' HP]. exists ps', ds. rewrite E1, E2, E3, E4.
  split; [|split; [|split; [|split; [|split; [|split]]]]].
  - unfold construct in *. destruct (ctor_kinds (nty x)) as [kk|]; [|discriminate].
    rewrite (ren_kinds _ _ _ HP), (ren_fields _ _ _ HP).
    assert (forallb (check ps' (nkids x')) (ctor_reqs (nty x)) = forallb (check ps (nkids x)) (ctor_reqs (nty x))) as ->.
    { clear H1. induction (ctor_reqs (nty x)) as [|q qs IH]; [reflexivity|]. cbn. rewrite IH, (ren_check _ _ HK _ _ q HP). reflexivity. }
    destruct (kinds_eqb (map kind_of ps) kk && forallb (check ps (nkids x)) (ctor_reqs (nty x))); [|discriminate].
    injection H1 as ->. reflexivity.
  - intros y Hy. apply In_nth_error in Hy. destruct Hy as [k Hk]. pose proof (ren_nth _ _ _ k HP) as H. rewrite Hk in H.
    destruct (nth_error ps k) as [[[]| | | | | |]|]; try contradiction; try discriminate H. apply H.
  - intros l y Hl Hy. apply In_nth_error in Hl. destruct Hl as [k Hk]. pose proof (ren_nth _ _ _ k HP) as H. rewrite Hk in H.
    destruct (nth_error ps k) as [[[]| | | | | |]|]; try contradiction; try discriminate H.
    destruct (ren_back _ _ _ _ H Hy) as [z [_ [_ Z]]]. exact Z.
  - intros T. apply H4 in T. rewrite T in HK. inversion HK; reflexivity.
  - exact H5.
  - rewrite (ren_length _ _ _ _ _ HP). exact H6.
  - intros i d p Hd Hp Hn. pose proof (ren_nth _ _ _ i HP) as H. rewrite Hp in H.
    destruct (nth_error ps i) as [q|] eqn:Eq; [|contradiction]. eapply ren_meets; [exact H|]. eauto.
Qed.

Lemma documented_erase : forall t, as_documented t <-> as_documented (erase t).
Proof.
  intros [i t r f ks o]. split; apply documented_same; try reflexivity; cbn; clear;
    induction ks; constructor; auto; unfold same; rewrite erase_id, erase_ty; auto.
Qed.

(** ** Segments *)
Lemma forest_ids : forall ts n, map nid (forest (fst (set_ordinals_all ts n))) = map nid (forest ts).
Proof.
  intros ts n. destruct (ordinals_all ts n) as [_ [H _]]. apply (f_equal forest) in H. rewrite !forest_erase in H.
  apply (f_equal (map nid)) in H. rewrite !map_map in H.
  rewrite !(map_ext _ _ erase_id) in H. exact H.
Qed.

Lemma roots_ids : forall ts n, map nid (fst (set_ordinals_all ts n)) = map nid ts /\ map nty (fst (set_ordinals_all ts n)) = map nty ts.
Proof.
  intros ts n. destruct (ordinals_all ts n) as [_ [H _]]. split.
  - apply (f_equal (map nid)) in H. rewrite !map_map in H.
    rewrite !(map_ext _ _ erase_id) in H. exact H.
  - apply (f_equal (map nty)) in H. rewrite !map_map in H.
    rewrite !(map_ext _ _ erase_ty) in H. exact H.
Qed.

(** the types of directives *)
Definition directive_type (only : bool) (t : asttype) : Prop :=
  t = T_STATEMENT \/ only = false /\ t = T_COMMAND.

Lemma result_types_spec : forall fl t, tin t (result_types fl) = true -> directive_type (pf_only_statements fl) t.
Proof.
  intros [s o] t. unfold result_types, directive_type. cbn [pf_only_statements].
  destruct o, t; vm_compute; intros H; try discriminate H; auto.
Qed.

Lemma produced_documented : forall cf la fl inp o y p a u en seg,
  produced cf la (start_rule fl) inp o y p a u en seg ->
  Forall as_documented (forest (s_roots seg)) /\ NoDup (map nid (forest (s_roots seg))) /\
  Forall (fun n => y_fresh y <= nid n < a_fresh a) (forest (s_roots seg)) /\ y_fresh y <= a_fresh a /\
  (forall i, s_directive seg = Some i -> exists x, In x (s_roots seg) /\ nid x = i /\
     directive_type (pf_only_statements fl) (nty x)).
Proof.
  intros cf la fl inp o y p a u en seg [[lines [HR _]] _ _ _ ->].
  pose proof (round_safe cf la (start_rule fl) inp y CG table (result_types fl) (start_entry fl)
    (adapted_CG _ _ _) table_checked (table_ends fl)) as H. rewrite HR in H.
  destruct H as [_ [_ [_ [_ [b [B1 [_ [_ [_ [B5 [B6 [B7 [B8 B9]]]]]]]]]]]]]. unfold round_segment. rewrite B1.
  destruct (make_segment_fields o (mkrange (y_off y) en) (a_errs a) (b_kids b) (a_result a) (a_eof a)) as [_ [_ [-> [_ [-> _]]]]].
  split; [|split; [|split; [|split]]].
  - apply forest_numbered; [apply documented_erase|exact B6].
  - rewrite forest_ids. exact B7.
  - apply forest_numbered; [intros t; rewrite erase_id; tauto|exact B8].
  - exact B9.
  - intros i Hi. destruct (a_result a) as [n|] eqn:En; [|discriminate]. injection Hi as <-.
    destruct (B5 n eq_refl) as [T1 T2]. destruct (roots_ids (b_kids b) o) as [R1 R2].
    destruct (In_nth_error _ _ T2) as [k Hk].
    pose proof (map_nth_error nid _ _ Hk) as K1. pose proof (map_nth_error nty _ _ Hk) as K2.
    rewrite <- R1 in K1. rewrite <- R2 in K2.
    destruct (nth_error (fst (set_ordinals_all (b_kids b) o)) k) as [x|] eqn:Ex.
    + exists x. rewrite (map_nth_error nid _ _ Ex) in K1. rewrite (map_nth_error nty _ _ Ex) in K2.
      split; [eapply nth_error_In; eauto|]. split; [congruence|]. injection K2 as ->. apply result_types_spec, T1.
    + apply nth_error_None in Ex. assert (nth_error (map nid (fst (set_ordinals_all (b_kids b) o))) k = None) as K3
        by (apply nth_error_None; rewrite map_length; exact Ex). congruence.
Qed.

Lemma nodup_app : forall (l1 l2 : list nat) m, NoDup l1 -> NoDup l2 -> Forall (fun x => x < m) l1 -> Forall (fun x => m <= x) l2 ->
  NoDup (l1 ++ l2).
Proof.
  intros l1 l2 m H1 H2 H3 H4. induction l1 as [|x l1 IH]; [exact H2|]. inversion H1; subst. inversion H3; subst.
  cbn. constructor; [|auto]. rewrite in_app_iff. intros [K|K]; [contradiction|]. rewrite Forall_forall in H4. apply H4 in K. lia.
Qed.

Definition seg_documented (only : bool) (seg : segment) : Prop :=
  Forall as_documented (forest (s_roots seg)) /\
  forall i, s_directive seg = Some i -> exists x, In x (s_roots seg) /\ nid x = i /\ directive_type only (nty x).

Lemma chain_documented : forall cf la fl inp o y segs c, chain cf la (start_rule fl) inp o y segs c ->
  Forall (seg_documented (pf_only_statements fl)) segs /\
  NoDup (map nid (flat_map (fun s => forest (s_roots s)) segs)) /\
  Forall (fun n => y_fresh y <= nid n) (flat_map (fun s => forest (s_roots s)) segs).
Proof.
  intros cf la fl inp o y segs c H. induction H as [| |inp o y p a u en seg H _|inp o y p a u en seg segs c H _ _ IH].
  - cbn. repeat constructor.
  - cbn. repeat constructor.
  - destruct (produced_documented _ _ _ _ _ _ _ _ _ _ _ H) as [A [B [C [D E]]]]. cbn. rewrite app_nil_r.
    split; [constructor; [split; assumption|constructor]|]. split; [exact B|]. eapply Forall_impl; [|exact C]. cbn; intros; lia.
  - destruct (produced_documented _ _ _ _ _ _ _ _ _ _ _ H) as [A [B [C [D E]]]]. destruct IH as [I1 [I2 I3]]. cbn in *.
    split; [constructor; [split; assumption|exact I1]|]. rewrite map_app. split.
    + apply nodup_app with (m := a_fresh a); auto; rewrite Forall_map; auto.
      eapply Forall_impl; [|exact C]. cbn; intros; lia.
    + apply Forall_app. split; [eapply Forall_impl; [|exact C]|eapply Forall_impl; [|exact I3]]; cbn; intros; lia.
Qed.

Lemma parse_each_documented : forall cf la cb fl inp ret segs last,
  parse_each cf la cb fl inp = PRet ret segs last ->
  Forall (seg_documented (pf_only_statements fl)) segs /\
  NoDup (map nid (flat_map (fun s => forest (s_roots s)) segs)).
Proof.
  intros cf la cb fl inp ret segs last H. apply parse_each_chain in H. destruct H as [c [H _]].
  apply chain_documented in H. tauto.
Qed.

(** ** Consequences for printing *)
From Verif Require Import DetailModel PrintModel PrintSpec DetailProofs PrintProofs.

Lemma documented_made : forall x, as_documented x -> made x.
Proof.
  intros x [ps [ds [H _]]]. exists (nid x), ps, (nkids x), (nrng x). eexists. split; [exact H|reflexivity].
Qed.

Lemma documented_points : forall x i, as_documented x -> In i (points_to x) -> In i (map nid (nkids x)).
Proof.
  intros x i [ps [ds [H [H2 [H3 _]]]]] Hi. unfold construct in H. destruct (ctor_kinds (nty x)) as [kk|]; [|discriminate].
  destruct (_ && _); [|discriminate]. injection H as E. unfold points_to in Hi. rewrite <- E in Hi.
  apply in_flat_map in Hi. destruct Hi as [f [Hf Hi]]. apply in_map_iff in Hf. destruct Hf as [p [<- Hp]].
  destruct p as [[y|]|l| | | | |]; cbn in Hi; try contradiction.
  - destruct Hi as [<- |[]]. apply in_map, H2, Hp.
  - apply in_map_iff in Hi. destruct Hi as [y [<- Hy]]. apply in_map. eauto.
Qed.

Lemma forest_kids : forall ts x y, In x (forest ts) -> In y (nkids x) -> In y (forest ts).
Proof.
  assert (K : forall t x y, In x (preorder t) -> In y (nkids x) -> In y (preorder t)).
  { apply (node_ind2 (fun t => forall x y, In x (preorder t) -> In y (nkids x) -> In y (preorder t))).
    intros i t r f ks o IH x y. rewrite preorder_eq. intros [<- |Hx] Hy.
    - right. cbn in Hy. apply in_flat_map. exists y. split; [exact Hy|]. destruct y. rewrite preorder_eq. left. reflexivity.
    - right. apply in_flat_map in Hx. destruct Hx as [k [K1 K2]]. apply in_flat_map. exists k. split; [exact K1|].
      rewrite Forall_forall in IH. eapply IH; eauto. }
  intros ts x y Hx Hy. apply in_flat_map in Hx. destruct Hx as [t [T1 T2]]. apply in_flat_map. exists t. eauto.
Qed.

Lemma find_app : forall (A : Type) (f : A -> bool) l1 l2, find f (l1 ++ l2) = match find f l1 with Some x => Some x | None => find f l2 end.
Proof. intros A f l1 l2. induction l1 as [|a l1 IH]; [reflexivity|]. cbn. destruct (f a); auto. Qed.

Lemma find_ord_eq : forall t i, find_ord t i = option_map nord (find (fun n => Nat.eqb (nid n) i) (preorder t)).
Proof.
  apply (node_ind2 (fun t => forall i, find_ord t i = option_map nord (find (fun n => Nat.eqb (nid n) i) (preorder t)))).
  intros j t r f ks o IH i. rewrite preorder_eq. cbn [find_ord find nid]. destruct (Nat.eqb j i); [reflexivity|].
  induction IH as [|k ks Hk _ IH]; [reflexivity|]. rewrite forest_cons, find_app, Hk.
  destruct (find _ (preorder k)); [reflexivity|exact IH].
Qed.

Lemma forest_ord_eq : forall ts i, forest_ord ts i = option_map nord (find (fun n => Nat.eqb (nid n) i) (forest ts)).
Proof.
  induction ts as [|t ts IH]; intros i; [reflexivity|]. cbn [forest_ord]. rewrite forest_cons, find_app, find_ord_eq.
  destruct (find _ (preorder t)); [reflexivity|apply IH].
Qed.

Lemma forest_ord_known : forall ts x, In x (forest ts) -> forest_ord ts (nid x) <> None.
Proof.
  intros ts x H. rewrite forest_ord_eq. destruct (find _ (forest ts)) as [y|] eqn:E; [discriminate|].
  pose proof (find_none _ _ E x H) as K. cbn in K. rewrite Nat.eqb_refl in K. discriminate.
Qed.

Lemma documented_resolved : forall ts, Forall as_documented (forest ts) -> Forall (resolved (forest_ord ts)) (forest ts).
Proof.
  intros ts H. rewrite Forall_forall in *. intros x Hx i Hi. apply (documented_points _ _ (H x Hx)) in Hi.
  apply in_map_iff in Hi. destruct Hi as [y [<- Hy]]. apply forest_ord_known. eapply forest_kids; eauto.
Qed.

Lemma parsed_printable : forall cf la cb fl inp ret segs last seg n,
  parse_each cf la cb fl inp = PRet ret segs last -> In seg segs -> In n (forest (s_roots seg)) ->
  made n /\ resolved (forest_ord (s_roots seg)) n.
Proof.
  intros cf la cb fl inp ret segs last seg n H Hs Hn. apply parse_each_documented in H. destruct H as [H _].
  rewrite Forall_forall in H. destruct (H seg Hs) as [K _]. pose proof (documented_resolved _ K) as R.
  rewrite Forall_forall in K, R. split; [apply documented_made|]; auto.
Qed.
