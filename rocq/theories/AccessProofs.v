(** * Proofs about the accessors of AST nodes *)
From Coq Require Import List Bool Arith Ascii String Lia.
From Verif Require Import Peg QuickModel ErrModel CypherSyntax AstTypes AstModel NodeFacts CypherSpec AstSpec AstProofs AccessModel AccessSpec.
Import ListNotations.

Lemma leb_len : forall (A : Type) (l : list A), Nat.leb (1 * List.length l + 0) (List.length l) = true.
Proof. intros A l. apply Nat.leb_le. lia. Qed.
Lemma firstn_len : forall (A : Type) (l : list A), firstn (1 * List.length l + 0) l = l.
Proof. intros A l. replace (1 * List.length l + 0) with (List.length l) by lia. apply firstn_all. Qed.

Lemma div2_le : forall n, 2 * Nat.div2 n + 0 <= n.
Proof. intros n. pose proof (Nat.div2_odd n). destruct (Nat.odd n); cbn [Nat.b2n] in *; lia. Qed.

Definition below (u : asttype) : list asttype :=
  filter (fun t => match instanceof_ty t u with Some b => b | None => false end) all_types.

Lemma in_below : forall t u, t <> T_COMMENT -> u <> T_COMMENT -> descends t u -> In t (below u).
Proof.
  intros t u Ht Hu H. unfold below. apply filter_In. split.
  - destruct t; vm_compute; tauto.
  - destruct (instanceof_ok t u Ht Hu) as [b [E K]]. rewrite E. apply K, H.
Qed.

Arguments Nat.mul : simpl never.
Arguments Nat.add : simpl never.
Arguments Nat.leb : simpl never.
Arguments Nat.ltb : simpl never.
Arguments Nat.div2 : simpl never.

Lemma nth_beyond : forall (A : Type) (l : list A) i, List.length l <= i -> nth_error l i = None.
Proof. intros A l i H. apply nth_error_None. exact H. Qed.

(** reading an element of a copied array *)
Lemma elem_ok : forall (l : list node) i,
  (if Nat.leb (List.length (map nid l)) i then ARet (RNode None)
   else match nth_error (map nid l) (i * 1 + 0) with Some x => ARet (RNode (Some x)) | None => AUndef end)
  = ARet (RNode (option_map nid (nth_error l i))).
Proof.
  intros l i. replace (i * 1 + 0) with i by lia. rewrite nth_error_map, map_length.
  destruct (Nat.leb_spec (List.length l) i) as [H|H].
  - rewrite nth_beyond by exact H. reflexivity.
  - destruct (nth_error l i) eqn:E; [reflexivity|]. apply nth_error_None in E. lia.
Qed.

Lemma elem_oper_ok : forall (l : list oper) i,
  (if Nat.leb (List.length l) i then ARet (ROper None)
   else match nth_error l (i * 1 + 0) with Some x => ARet (ROper (Some x)) | None => AUndef end)
  = ARet (ROper (nth_error l i)).
Proof.
  intros l i. replace (i * 1 + 0) with i by lia.
  destruct (Nat.leb_spec (List.length l) i) as [H|H].
  - rewrite nth_beyond by exact H. reflexivity.
  - destruct (nth_error l i) eqn:E; [reflexivity|]. apply nth_error_None in E. lia.
Qed.

(** arrays of pairs *)
Lemma pairs_ind : forall (P : list node -> Prop), P [] -> (forall x, P [x]) -> (forall x y l, P l -> P (x :: y :: l)) -> forall l, P l.
Proof.
  intros P H0 H1 H2. fix IH 1. intros [|x [|y l]]; [exact H0|apply H1|apply H2, IH].
Qed.

Lemma pairs_len : forall l, List.length (in_pairs l) = Nat.div2 (List.length l).
Proof. intros l. induction l as [|x|x y l IH] using pairs_ind; cbn; [reflexivity..|]. rewrite IH. reflexivity. Qed.

Lemma pairs_nth : forall l i q, nth_error (in_pairs l) i = Some q ->
  nth_error l (i * 2 + 0) = Some (fst q) /\ nth_error l (i * 2 + 1) = Some (snd q).
Proof.
  intros l. induction l as [|x|x y l IH] using pairs_ind; intros i q; [destruct i; discriminate..|].
  destruct i as [|i].
  - cbn. intros [= <-]. split; reflexivity.
  - cbn [in_pairs nth_error]. intros H. apply IH in H. destruct H as [H1 H2].
    replace (S i * 2 + 0) with (S (S (i * 2 + 0))) by lia. replace (S i * 2 + 1) with (S (S (i * 2 + 1))) by lia.
    cbn [nth_error]. auto.
Qed.

Lemma nth_firstn : forall (A : Type) (l : list A) n i, i < n -> nth_error (firstn n l) i = nth_error l i.
Proof.
  intros A l. induction l as [|x l IH]; intros [|n] [|i] H; cbn; try lia; try reflexivity.
  apply IH. lia.
Qed.

Lemma pair_fst_ok : forall l i,
  (if Nat.leb (Nat.div2 (List.length (map nid l))) i then ARet (RNode None)
   else match nth_error (firstn (2 * Nat.div2 (List.length (map nid l)) + 0) (map nid l)) (i * 2 + 0) with
        | Some x => ARet (RNode (Some x)) | None => AUndef end)
  = ARet (RNode (option_map (fun q => nid (fst q)) (nth_error (in_pairs l) i))).
Proof.
  intros l i. rewrite map_length. destruct (Nat.leb_spec (Nat.div2 (List.length l)) i) as [H|H].
  - rewrite nth_beyond by (rewrite pairs_len; exact H). reflexivity.
  - rewrite nth_firstn by lia. rewrite nth_error_map.
    destruct (nth_error (in_pairs l) i) as [q|] eqn:E; [|apply nth_error_None in E; rewrite pairs_len in E; lia].
    destruct (pairs_nth _ _ _ E) as [-> _]. reflexivity.
Qed.

Lemma pair_snd_ok : forall l i,
  (if Nat.leb (Nat.div2 (List.length (map nid l))) i then ARet (RNode None)
   else match nth_error (firstn (2 * Nat.div2 (List.length (map nid l)) + 0) (map nid l)) (i * 2 + 1) with
        | Some x => ARet (RNode (Some x)) | None => AUndef end)
  = ARet (RNode (option_map (fun q => nid (snd q)) (nth_error (in_pairs l) i))).
Proof.
  intros l i. rewrite map_length. destruct (Nat.leb_spec (Nat.div2 (List.length l)) i) as [H|H].
  - rewrite nth_beyond by (rewrite pairs_len; exact H). reflexivity.
  - rewrite nth_firstn by lia. rewrite nth_error_map.
    destruct (nth_error (in_pairs l) i) as [q|] eqn:E; [|apply nth_error_None in E; rewrite pairs_len in E; lia].
    destruct (pairs_nth _ _ _ E) as [_ ->]. reflexivity.
Qed.

Lemma str_ok : forall s, upto_nul (s ++ [NUL]) = Some (c_string s).
Proof.
  induction s as [|c s IH]; [reflexivity|]. cbn [app upto_nul c_string]. change NUL with "000"%char in *.
  destruct (Ascii.eqb c "000"%char); [reflexivity|]. rewrite IH. reflexivity.
Qed.

Definition good (a : accessor) (t : asttype) : Prop :=
  forall id ps kids rng n i, construct id t ps kids rng = Some n ->
  exists r, access a n i = ARet r /\ promised t ps (snd (doc_access a)) i r.

Ltac shape E := match type of E with
  | map kind_of ?ps = [] => destruct ps; [clear E|discriminate E]
  | map kind_of ?ps = _ :: _ =>
      let p := fresh "p" in let ps' := fresh "ps" in
      destruct ps as [|p ps']; [discriminate E|]; destruct p; try discriminate E;
      let E' := fresh "E" in
      cbn [map kind_of] in E; injection E as E'; shape E'
  end.

Ltac clean := rewrite ?Nat.leb_refl, ?leb_len, ?firstn_len, ?(proj2 (Nat.leb_le _ _) (div2_le _)); cbn.
Ltac start :=
  intros id ps kids rng n i H; apply construct_inv in H; destruct H as (ks & H1 & H2 & H3 & ->);
  cbn in H1; injection H1 as <-; shape H2;
  unfold access; cbn; unfold elem, get, member, structure; cbn; unfold run_assign; cbn.
Ltac finish :=
  rewrite ?str_ok, ?elem_ok, ?elem_oper_ok, ?pair_fst_ok, ?pair_snd_ok;
  eexists; (split; [reflexivity|]); cbn; rewrite ?pairs_len, ?map_length; reflexivity.
Ltac go :=
  start; do 5 clean;
  (* guarded assignments *)
  repeat match goal with
  | |- context [match List.length (map nid ?l) with 0 => ?a | S _ => ?b end] =>
      let E := fresh "E" in
      destruct (List.length (map nid l)) eqn:E in |- *;
      [ destruct l; [|discriminate E]; cbn; clear E
      | rewrite <- E; clear E; cbn; do 5 clean ]
  end; first [ finish | eexists; split; [reflexivity|match goal with i : nat |- _ = RNode (option_map _ (nth_error [] ?j)) => destruct j end; reflexivity] ].

Lemma comparison_good : forall a, doc_type a = T_COMPARISON -> good a T_COMPARISON.
Proof.
  intros a Ha. destruct a; try discriminate Ha; clear Ha; start; cbn in H3.
  all: destruct l as [|o l]; [discriminate H3|]; apply andb_prop in H3; destruct H3 as [H3 _];
    apply Nat.eqb_eq in H3; cbn in H3.
  all: clean; rewrite map_length, H3.
  all: replace (Nat.leb (1 * S (List.length l) + 1) (S (S (List.length l)))) with true by (symmetry; apply Nat.leb_le; lia).
  all: replace (1 * S (List.length l) + 1) with (List.length (map nid l0)) by (rewrite map_length; lia).
  all: rewrite firstn_all; cbn.
  - eexists. split; reflexivity.
  - change (S (List.length l)) with (List.length (o :: l)). rewrite elem_oper_ok. eexists. split; reflexivity.
  - pose proof (elem_ok l0 i) as K. rewrite map_length, H3 in K.
    replace (Nat.ltb (S (List.length l)) i) with (Nat.leb (S (S (List.length l))) i) by reflexivity.
    rewrite K. eexists. split; reflexivity.
Qed.

Lemma all_good : forall a t, ctor_kinds t <> None -> descends t (doc_type a) -> ~ of_path a -> good a t.
Proof.
  intros a t Ht Hd Hn.
  assert (B : In t (below (doc_type a))).
  { apply in_below; [intros ->; apply Ht; reflexivity|destruct a; discriminate|exact Hd]. }
  clear Hd. destruct a; try (exfalso; apply Hn; left; reflexivity); try (exfalso; apply Hn; right; reflexivity); clear Hn;
  vm_compute in B;
  repeat match goal with B : _ \/ _ |- _ => destruct B as [B|B] | B : False |- _ => destruct B end; subst t;
  first [apply comparison_good; reflexivity | go].
Qed.

Lemma accessor_ok : forall a id t ps kids rng n i, construct id t ps kids rng = Some n ->
  descends t (doc_type a) -> ~ of_path a ->
  exists r, access a n i = ARet r /\ promised t ps (snd (doc_access a)) i r.
Proof.
  intros a id t ps kids rng n i H Hd Hp. refine (all_good a t _ Hd Hp id ps kids rng n i H).
  apply construct_inv in H. destruct H as (ks & H & _). congruence.
Qed.

(** ** Nodes of other types *)

Lemma acc_type : forall a, fst (acc_body a) = doc_type a.
Proof. destruct a; reflexivity. Qed.

Lemma wrong_type : forall a n i, nty n <> T_COMMENT -> ~ descends (nty n) (doc_type a) -> access a n i = AAbort.
Proof.
  intros a n i Ht Hd. unfold access, require_type. rewrite acc_type.
  destruct (instanceof_ok (nty n) (doc_type a) Ht ltac:(destruct a; discriminate)) as [b [E K]]. rewrite E.
  destruct b; [|reflexivity]. exfalso. apply Hd, K. reflexivity.
Qed.

(** ** Paths *)

Lemma forward_ok : forall kids p v i k, NoDup (map nid kids) -> In k kids -> nid k = p ->
  (fix go (ks : list node) : aout :=
     match ks with
     | [] => AUndef
     | k :: ks => if Nat.eqb (nid k) p then require_type k T_PATTERN_PATH (virt k v i) else go ks
     end) kids = require_type k T_PATTERN_PATH (virt k v i).
Proof.
  induction kids as [|x kids IH]; intros p v i k Hn Hi Hk; [destruct Hi|].
  cbn [map] in Hn. inversion Hn as [|? ? Hx Hn']. subst. destruct (Nat.eqb_spec (nid x) (nid k)) as [E|E].
  - destruct Hi as [->|Hi]; [reflexivity|]. exfalso. apply Hx. rewrite E. apply in_map, Hi.
  - destruct Hi as [->|Hi]; [congruence|]. apply IH; auto.
Qed.

Lemma kids_in_preorder : forall x k, In k (nkids x) -> incl (preorder k) (preorder x).
Proof.
  intros [i t r f ks o] k H y Hy. cbn [nkids] in H. cbn [preorder]. right. apply in_flat_map. exists k. auto.
Qed.

Lemma self_in_preorder : forall x, In x (preorder x).
Proof. intros [i t r f ks o]. left. reflexivity. Qed.

Definition path_ok (x : node) : Prop :=
  Forall built (preorder x) -> NoDup (map nid (preorder x)) -> descends (nty x) T_PATTERN_PATH ->
  exists l, path_elements x l /\
    (forall i, virt x V_nelements i = ARet (RNum (List.length l))) /\
    (forall i, virt x V_get_element i = ARet (RNode (nth_error l i))) /\
    (forall k, In k l -> exists y, In y (forest (nkids x)) /\ nid y = k).

Lemma forwarded : forall x k l i, Forall built (preorder x) -> NoDup (map nid (preorder x)) ->
  In k (nkids x) -> descends (nty k) T_PATTERN_PATH ->
  (forall i, virt k V_nelements i = ARet (RNum (List.length l))) ->
  (forall i, virt k V_get_element i = ARet (RNode (nth_error l i))) ->
  (exists o, vtable (nty x) V_nelements = Some (VForward (nty x) o V_nelements) /\
             vtable (nty x) V_get_element = Some (VForward (nty x) o V_get_element) /\
             member x (nty x) o = Some (MNode (Some (nid k)))) ->
  virt x V_nelements i = ARet (RNum (List.length l)) /\ virt x V_get_element i = ARet (RNode (nth_error l i)).
Proof.
  intros [id t r f ks od] k l i Hb Hn Hk Hd H1 H2 (o & V1 & V2 & Hm). cbn [nty nkids] in *.
  rewrite preorder_eq in Hn. cbn [map] in Hn. inversion Hn as [|? ? _ Hn']. subst.
  apply NoDup_kids in Hn'. destruct Hn' as [Hn' _].
  cbn [virt]. rewrite V1, V2, Hm. rewrite !(forward_ok ks (nid k) _ i k Hn' Hk eq_refl).
  unfold require_type. rewrite (instanceof_complete (nty k) T_PATTERN_PATH ltac:(discriminate) Hd), H1, H2. auto.
Qed.

Lemma below_path : forall t, t <> T_COMMENT -> descends t T_PATTERN_PATH -> t = T_NAMED_PATH \/ t = T_SHORTEST_PATH \/ t = T_PATTERN_PATH.
Proof.
  intros t Ht H. apply in_below in H; [|exact Ht|discriminate]. vm_compute in H. intuition congruence.
Qed.

Lemma is_a_descends : forall x t, is_a x t = true -> descends (nty x) t.
Proof.
  intros x t H. apply instanceof_sound. unfold is_a in H. destruct (instanceof_ty (nty x) t) as [[|]|]; congruence.
Qed.

Lemma paths_ok : forall x, path_ok x.
Proof.
  apply node_ind2. intros id t r f ks od IH Hb Hn Hd. cbn [nty] in Hd.
  rewrite preorder_eq in Hb. inversion Hb as [|? ? B Hbk]. subst. destruct B as (ps & C & Bn & Bl & _).
  cbn [nid nty nrng nflds nkids] in *. apply construct_inv in C. destruct C as (kk & C1 & C2 & C3 & C4).
  injection C4 as Ef.
  assert (Ht : t <> T_COMMENT) by (intros ->; discriminate C1).
  assert (Kid : forall k, In k ks -> Forall built (preorder k) /\ NoDup (map nid (preorder k))).
  { intros k Hk. split.
    - rewrite Forall_forall in Hbk |- *. intros y Hy. apply Hbk, in_flat_map. eauto.
    - rewrite preorder_eq in Hn. cbn [map] in Hn. inversion Hn as [|? ? _ Hn']. apply NoDup_kids in Hn'. destruct Hn' as [_ Hn'].
      rewrite Forall_forall in Hn'. auto. }
  assert (Step : forall k, In k ks -> descends (nty k) T_PATTERN_PATH -> exists l, path_elements k l /\
    (forall i, virt k V_nelements i = ARet (RNum (List.length l))) /\
    (forall i, virt k V_get_element i = ARet (RNode (nth_error l i))) /\
    (forall j, In j l -> exists y, In y (forest ks) /\ nid y = j)).
  { intros k Hk Hdk. rewrite Forall_forall in IH. destruct (Kid k Hk) as [K1 K2].
    destruct (IH k Hk K1 K2 Hdk) as (l & L1 & L2 & L3 & L4). exists l. repeat split; auto.
    intros j Hj. destruct (L4 j Hj) as (y & Y1 & Y2). exists y. split; [|exact Y2].
    apply in_flat_map. exists k. split; [exact Hk|]. destruct k. rewrite preorder_eq. right. exact Y1. }
  destruct (below_path t Ht Hd) as [-> | [-> | ->]]; cbn in C1; injection C1 as <-; shape C2; cbn in C3, Ef.
  - (* named path *)
    destruct o0 as [p|]; [|rewrite ?andb_false_r in C3; discriminate C3].
    assert (Hp : In p ks) by (apply Bn; right; left; reflexivity).
    assert (Dp : descends (nty p) T_PATTERN_PATH).
    { apply is_a_descends. destruct (is_a p T_PATTERN_PATH); [reflexivity|]. cbn in C3. rewrite ?andb_false_r in C3. discriminate C3. }
    destruct (Step p Hp Dp) as (l & L1 & L2 & L3 & L4). exists l. split; [|split; [|split; [|exact L4]]].
    + eapply pe_named; [reflexivity|cbn; rewrite Ef; reflexivity|exact Hp|reflexivity|exact L1].
    + intros i. eapply (forwarded (Node id T_NAMED_PATH r f ks od) p l i); [|exact Hn|exact Hp|exact Dp|exact L2|exact L3|].
      * rewrite preorder_eq. exact Hb.
      * exists "path"%string. repeat split. unfold member, structure. cbn. rewrite Ef. reflexivity.
    + intros i. eapply (forwarded (Node id T_NAMED_PATH r f ks od) p l i); [|exact Hn|exact Hp|exact Dp|exact L2|exact L3|].
      * rewrite preorder_eq. exact Hb.
      * exists "path"%string. repeat split. unfold member, structure. cbn. rewrite Ef. reflexivity.
  - (* shortest path *)
    destruct o as [p|]; [|rewrite ?andb_false_r in C3; discriminate C3].
    assert (Hp : In p ks) by (apply Bn; right; left; reflexivity).
    assert (Dp : descends (nty p) T_PATTERN_PATH).
    { apply is_a_descends. destruct (is_a p T_PATTERN_PATH); [reflexivity|]. cbn in C3. rewrite ?andb_false_r in C3. discriminate C3. }
    destruct (Step p Hp Dp) as (l & L1 & L2 & L3 & L4). exists l. split; [|split; [|split; [|exact L4]]].
    + eapply pe_shortest; [reflexivity|cbn; rewrite Ef; reflexivity|exact Hp|reflexivity|exact L1].
    + intros i. eapply (forwarded (Node id T_SHORTEST_PATH r f ks od) p l i); [|exact Hn|exact Hp|exact Dp|exact L2|exact L3|].
      * rewrite preorder_eq. exact Hb.
      * exists "path"%string. repeat split. unfold member, structure. cbn. rewrite Ef. reflexivity.
    + intros i. eapply (forwarded (Node id T_SHORTEST_PATH r f ks od) p l i); [|exact Hn|exact Hp|exact Dp|exact L2|exact L3|].
      * rewrite preorder_eq. exact Hb.
      * exists "path"%string. repeat split. unfold member, structure. cbn. rewrite Ef. reflexivity.
  - (* pattern path *)
    exists (map nid l). split; [|split; [|split]].
    + apply pe_path; [reflexivity|]. cbn. rewrite Ef. reflexivity.
    + intros i. rewrite Ef. cbn. unfold get, member, structure. cbn. do 3 clean. reflexivity.
    + intros i. rewrite Ef. cbn. unfold elem, member, structure. cbn. do 3 clean. rewrite elem_ok, nth_error_map. reflexivity.
    + intros k Hk. apply in_map_iff in Hk. destruct Hk as (y & <- & Hy). exists y. split; [|reflexivity].
      apply in_flat_map. exists y. split; [|apply self_in_preorder]. apply (Bl l y); [left; reflexivity|exact Hy].
Qed.

(** ** Nodes of a tree *)

Lemma access_ord : forall a id t r f ks od i, access a (Node id t r f ks od) i = access a (Node id t r f ks 0) i.
Proof. intros. unfold access. destruct (snd (acc_body a)); reflexivity. Qed.

Lemma arg_named_in : forall ns ps p x, arg_named ns ps p = Some x -> In x ps.
Proof.
  induction ns as [|n ns IH]; intros ps p x H; [destruct ps; discriminate H|].
  destruct ps as [|y ps]; [discriminate H|]. cbn in H. destruct (String.eqb n p).
  - injection H as <-. left. reflexivity.
  - right. eapply IH, H.
Qed.

Lemma in_pairs_in : forall l q, In q (in_pairs l) -> In (fst q) l /\ In (snd q) l.
Proof.
  apply (pairs_ind (fun l => forall q, In q (in_pairs l) -> In (fst q) l /\ In (snd q) l)); cbn; try tauto.
  intros x y l IH q [<-|H]; cbn; [tauto|]. destruct (IH q H). tauto.
Qed.

Lemma promised_kid : forall t ps w i r kids k, promised t ps w i r -> r = RNode (Some k) ->
  (forall y, In (PN (Some y)) ps -> In y kids) -> (forall l y, In (PL l) ps -> In y l -> In y kids) ->
  exists y, In y kids /\ nid y = k.
Proof.
  intros t ps w i r kids k H -> Hn Hl.
  destruct w as [p|p|p|p|p|p| |]; cbn in H; try tauto;
    (destruct (arg_named (doc_names t) ps p) as [[o|l|b|d|o|l|s]|] eqn:E; try discriminate H; try tauto); apply arg_named_in in E.
  - destruct o as [y|]; [|discriminate H]. injection H as ->. eauto.
  - destruct (nth_error l i) as [y|] eqn:En; [|discriminate H]. injection H as ->. apply nth_error_In in En. eauto.
  - destruct (nth_error (in_pairs l) i) as [y|] eqn:En; [|discriminate H]. injection H as ->. apply nth_error_In, in_pairs_in in En. destruct En. eauto.
  - destruct (nth_error (in_pairs l) i) as [y|] eqn:En; [|discriminate H]. injection H as ->. apply nth_error_In, in_pairs_in in En. destruct En. eauto.
Qed.

Lemma of_path_dec : forall a, (a = A_pattern_path_nelements \/ a = A_pattern_path_get_element) \/ ~ of_path a.
Proof. intros a. unfold of_path. destruct a; try (left; tauto); right; intros [H|H]; discriminate H. Qed.

Lemma path_accessors : forall x, Forall built (preorder x) -> NoDup (map nid (preorder x)) ->
  descends (nty x) T_PATTERN_PATH ->
  exists l, path_elements x l /\
    (forall i, access A_pattern_path_nelements x i = ARet (RNum (List.length l))) /\
    (forall i, access A_pattern_path_get_element x i = ARet (RNode (nth_error l i))) /\
    (forall k, In k l -> exists y, In y (forest (nkids x)) /\ nid y = k).
Proof.
  intros x Hb Hn Hd. destruct (paths_ok x Hb Hn Hd) as (l & L1 & L2 & L3 & L4). exists l.
  unfold access, require_type. cbn [acc_body fst snd].
  rewrite (instanceof_complete (nty x) T_PATTERN_PATH ltac:(discriminate) Hd). auto.
Qed.

Lemma tree_accessor : forall x a i, Forall built (preorder x) -> NoDup (map nid (preorder x)) ->
  descends (nty x) (doc_type a) ->
  exists r, access a x i = ARet r /\
    forall k, r = RNode (Some k) -> exists y, In y (forest (nkids x)) /\ nid y = k.
Proof.
  intros x a i Hb Hn Hd. destruct (of_path_dec a) as [Ha|Ha].
  - assert (Hd' : descends (nty x) T_PATTERN_PATH) by (destruct Ha as [-> | ->]; exact Hd).
    destruct (path_accessors x Hb Hn Hd') as (l & L1 & L2 & L3 & L4). destruct Ha as [-> | ->].
    + eexists. split; [apply L2|discriminate].
    + eexists. split; [apply L3|]. intros k H. injection H as H. apply nth_error_In in H. auto.
  - destruct x as [id t r f ks od]. rewrite preorder_eq in Hb. inversion Hb as [|? ? B _]. subst.
    destruct B as (ps & C & Bn & Bl & _). cbn [nid nty nrng nflds nkids] in *.
    destruct (accessor_ok a id t ps ks r _ i C Hd Ha) as (v & V1 & V2). exists v. rewrite access_ord. split; [exact V1|].
    intros k Hk. destruct (promised_kid _ _ _ _ _ ks _ V2 Hk Bn Bl) as (y & Y1 & Y2). exists y. split; [|exact Y2].
    apply in_flat_map. exists y. split; [exact Y1|apply self_in_preorder].
Qed.
