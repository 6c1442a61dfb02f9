(** * Proofs about the type hierarchy, constructors and cloning *)
From Coq Require Import List Bool Arith Lia.
From Verif Require Import Peg QuickModel CypherSyntax AstTypes AstModel CypherSpec NodeFacts AstSpec.
Import ListNotations.

Lemma all_types_all : forall t, In t all_types.
Proof. destruct t; unfold all_types; repeat (first [left; reflexivity | right]). Qed.

Lemma for_all_types : forall P : asttype -> bool, forallb P all_types = true -> forall t, P t = true.
Proof. intros P H t. rewrite forallb_forall in H. apply H, all_types_all. Qed.

Definition idx_type (n : nat) : asttype := nth n all_types T_STATEMENT.
Lemma idx_type_idx : forall t, idx_type (type_idx t) = t.
Proof. destruct t; reflexivity. Qed.

Lemma type_eqb_eq : forall a b, type_eqb a b = true <-> a = b.
Proof.
  intros a b. unfold type_eqb. rewrite Nat.eqb_eq. split; [|intros ->; reflexivity].
  intros H. rewrite <- (idx_type_idx a), <- (idx_type_idx b), H. reflexivity.
Qed.

(** ** The hierarchy *)

Fixpoint height (n : nat) (t : asttype) : nat :=
  match n with
  | 0 => 0
  | S n => fold_right Nat.max 0 (map (fun p => S (height n p)) (vt_parents t))
  end.

Lemma height_parent : forall t p, In p (vt_parents t) -> height vt_depth p < height vt_depth t.
Proof.
  intros t p H.
  assert (A : forallb (fun p => Nat.ltb (height vt_depth p) (height vt_depth t)) (vt_parents t) = true)
    by (destruct t; reflexivity).
  rewrite forallb_forall in A. apply Nat.ltb_lt, A, H.
Qed.

Lemma vt_depth_ok : forall t, height vt_depth t < vt_depth.
Proof. intros t. apply Nat.ltb_lt. destruct t; reflexivity. Qed.

Lemma vt_sound : forall n v w, vt_instanceof n v (Some w) = true -> descends v w.
Proof.
  induction n as [|n IH]; intros v w H; cbn [vt_instanceof] in H; apply orb_true_iff in H;
    destruct H as [H | H]; try (apply type_eqb_eq in H; subst; constructor); [discriminate|].
  apply existsb_exists in H. destruct H as [p [H1 H2]]. econstructor; [exact H1|]. apply IH, H2.
Qed.

Lemma vt_complete : forall v w, descends v w -> forall n, height vt_depth v <= n ->
  vt_instanceof n v (Some w) = true.
Proof.
  induction 1 as [t|t p u H1 _ IH]; intros n Hn.
  - destruct n; cbn [vt_instanceof]; apply orb_true_iff; left; apply type_eqb_eq; reflexivity.
  - apply height_parent in H1 as H2. destruct n as [|n]; [lia|]. cbn [vt_instanceof].
    apply orb_true_iff. right. apply existsb_exists. exists p. split; [exact H1|]. apply IH. lia.
Qed.

Lemma vts_some : forall t, t <> T_COMMENT -> vts t = Some t.
Proof. destruct t; intros H; try reflexivity. congruence. Qed.

Lemma instanceof_ok : forall t u, t <> T_COMMENT -> u <> T_COMMENT ->
  exists b, instanceof_ty t u = Some b /\ (b = true <-> descends t u).
Proof.
  intros t u Ht Hu. unfold instanceof_ty. rewrite !vts_some by assumption.
  exists (vt_instanceof vt_depth t (Some u)). split; [reflexivity|]. split; [apply (vt_sound vt_depth)|].
  intros H. apply vt_complete; [exact H|]. pose proof (vt_depth_ok t). lia.
Qed.

Lemma instanceof_sound : forall t u, instanceof_ty t u = Some true -> descends t u.
Proof.
  intros t u. unfold instanceof_ty. destruct (vts t) as [v|] eqn:E; intros H.
  - assert (v = t) by (destruct t; cbn in E; congruence). subst v.
    assert (H' : vt_instanceof vt_depth t (vts u) = true) by congruence. clear H.
    destruct (vts u) as [w|] eqn:Eu.
    + assert (w = u) by (destruct u; cbn in Eu; congruence). subst w. eapply vt_sound, H'.
    + destruct t; discriminate H'.
  - destruct t; try discriminate. destruct u; try discriminate. constructor.
Qed.

Lemma descends_trans : forall t u, descends t u -> forall w, descends u w -> descends t w.
Proof. induction 1 as [|t p u H1 _ IH]; intros w Hw; [exact Hw|]. econstructor; [exact H1|]. apply IH, Hw. Qed.

Lemma descends_height : forall t u, descends t u -> t = u \/ height vt_depth u < height vt_depth t.
Proof.
  induction 1 as [|t p u H1 _ IH]; [left; reflexivity|]. right. apply height_parent in H1.
  destruct IH as [-> | IH]; lia.
Qed.

Lemma descends_anti : forall t u, descends t u -> descends u t -> t = u.
Proof.
  intros t u H1 H2. apply descends_height in H1, H2. destruct H1 as [H1 | H1], H2 as [H2 | H2]; auto; lia.
Qed.

Lemma comment_top : forall u, descends T_COMMENT u -> u = T_COMMENT.
Proof. intros u H. inversion H; subst; [reflexivity|]. destruct H0. Qed.

Lemma instanceof_complete : forall t u, u <> T_COMMENT -> descends t u -> instanceof_ty t u = Some true.
Proof.
  intros t u Hu H. assert (Ht : t <> T_COMMENT) by (intros ->; apply comment_top in H; congruence).
  destruct (instanceof_ok t u Ht Hu) as [b [Hb H2]]. rewrite Hb. f_equal. apply H2, H.
Qed.

Lemma instanceof_refl : forall t, instanceof_ty t t = Some true.
Proof. destruct t; reflexivity. Qed.

Lemma instanceof_to_comment : forall t, instanceof_ty t T_COMMENT = Some true -> t = T_COMMENT.
Proof. destruct t; cbn; congruence. Qed.

Lemma instanceof_trans : forall t u w, instanceof_ty t u = Some true -> instanceof_ty u w = Some true ->
  instanceof_ty t w = Some true.
Proof.
  intros t u w H1 H2. destruct w; try (apply instanceof_complete; [congruence|];
    eapply descends_trans; apply instanceof_sound; eassumption).
  apply instanceof_to_comment in H2. subst. apply instanceof_to_comment in H1. subst. reflexivity.
Qed.

Lemma doc_also_ok : forall t u, In u (doc_also t) -> u <> T_COMMENT -> instanceof_ty t u = Some true.
Proof.
  intros t u H Hu.
  assert (A : forallb (fun u => type_eqb u T_COMMENT ||
      match instanceof_ty t u with Some b => b | None => false end) (doc_also t) = true)
    by (destruct t; reflexivity).
  rewrite forallb_forall in A. specialize (A u H). apply orb_true_iff in A. destruct A as [A | A].
  - apply type_eqb_eq in A. congruence.
  - destruct (instanceof_ty t u) as [[|]|]; congruence.
Qed.

Lemma is_a_sound : forall x t, is_a x t = true -> descends (nty x) t.
Proof.
  intros x t. unfold is_a. destruct (instanceof_ty (nty x) t) as [[|]|] eqn:E; try discriminate.
  intros _. apply instanceof_sound, E.
Qed.

Lemma is_a_complete : forall x t, t <> T_COMMENT -> descends (nty x) t -> is_a x t = true.
Proof. intros x t Ht H. unfold is_a. rewrite instanceof_complete by assumption. reflexivity. Qed.

(** ** Constructors *)

Lemma contains_ok : forall kids x, contains kids x = true <-> child_of kids x.
Proof.
  intros. unfold contains, child_of. rewrite existsb_exists. split; intros [k [H1 H2]]; exists k;
    (split; [exact H1|]); apply Nat.eqb_eq; exact H2.
Qed.

Lemma kinds_eqb_eq : forall a b, kinds_eqb a b = true -> a = b.
Proof.
  induction a as [|x a IH]; intros [|y b] H; cbn in H; try discriminate; [reflexivity|].
  apply andb_true_iff in H. destruct H as [H1 H2]. f_equal; [|apply IH, H2].
  destruct x, y; cbn in H1; congruence.
Qed.

Definition tmem (t : asttype) (ts : list asttype) : bool := existsb (type_eqb t) ts.
Lemma tmem_in : forall t ts, tmem t ts = true -> In t ts.
Proof.
  intros t ts H. apply existsb_exists in H. destruct H as [u [H1 H2]]. apply type_eqb_eq in H2. subst.
  exact H1.
Qed.

(** the checks of a constructor force the parameter at [k] to be as documented *)
Definition implied (ks : list pkind) (rs : list req) (k : nat) (d : dparam) : bool :=
  let has r := existsb r rs in
  let kind x := match nth_error ks k with Some y => pkind_eqb x y | None => false end in
  match d with
  | DOne ts =>
      has (fun r => match r with RqChild j t => Nat.eqb j k && tmem t ts | _ => false end) ||
      (has (fun r => match r with RqEither j t1 t2 => Nat.eqb j k && tmem t1 ts && tmem t2 ts | _ => false end) &&
       has (fun r => match r with RqContains j => Nat.eqb j k | _ => false end))
  | DOpt ts =>
      has (fun r => match r with RqChildOpt j t => Nat.eqb j k && tmem t ts | _ => false end) ||
      (has (fun r => match r with RqEitherOpt j t1 t2 => Nat.eqb j k && tmem t1 ts && tmem t2 ts | _ => false end) &&
       has (fun r => match r with RqContainsOpt j => Nat.eqb j k | _ => false end))
  | DAll ts => has (fun r => match r with RqChildAll j t => Nat.eqb j k && tmem t ts | _ => false end)
  | DList => kind KList
  | DPairs t1 t2 => has (fun r => match r with RqPairs j u1 u2 => Nat.eqb j k && type_eqb t1 u1 && type_eqb t2 u2 | _ => false end)
  | DAlternate t1 t2 =>
      has (fun r => match r with RqAlternate j u1 u2 => Nat.eqb j k && type_eqb t1 u1 && type_eqb t2 u2 | _ => false end) &&
      has (fun r => match r with RqOdd j => Nat.eqb j k | _ => false end)
  | DOp => has (fun r => match r with RqOper j => Nat.eqb j k | _ => false end)
  | DOps => has (fun r => match r with RqChain j _ => Nat.eqb j k | _ => false end)
  | DFree => kind KBool || kind KDir || kind KStr
  end.

Ltac break := repeat match goal with
  | H : _ && _ = true |- _ => apply andb_true_iff in H; destruct H
  | H : Nat.eqb _ _ = true |- _ => apply Nat.eqb_eq in H; subst
  | H : tmem _ _ = true |- _ => apply tmem_in in H
  | H : type_eqb _ _ = true |- _ => apply type_eqb_eq in H; subst
  end.

Lemma has_check : forall ps kids rs f, forallb (check ps kids) rs = true -> existsb f rs = true ->
  exists r, f r = true /\ check ps kids r = true.
Proof.
  intros ps kids rs f H1 H2. apply existsb_exists in H2. destruct H2 as [r [H2 H3]].
  rewrite forallb_forall in H1. exists r. auto.
Qed.

Lemma pairs_nth : forall l t1 t2, pairs_a l t1 t2 = true -> forall i x, nth_error l i = Some x ->
  is_a x (if Nat.even i then t1 else t2) = true.
Proof.
  fix IH 1. intros [|x [|y l]] t1 t2 H i z Hz.
  - destruct i; discriminate.
  - discriminate.
  - cbn [pairs_a] in H. break. destruct i as [|[|i]]; cbn in Hz.
    + injection Hz as <-. assumption.
    + injection Hz as <-. assumption.
    + apply (IH l t1 t2) with (1 := H0) in Hz. exact Hz.
Qed.

Lemma alternate_nth : forall l kids t1 t2, alternate l kids t1 t2 = true -> forall i x, nth_error l i = Some x ->
  is_a x (if Nat.even i then t1 else t2) = true /\ contains kids x = true.
Proof.
  induction l as [|x l IH]; intros kids t1 t2 H i z Hz; [destruct i; discriminate|].
  cbn [alternate] in H. break. destruct i as [|i]; cbn in Hz.
  - injection Hz as <-. auto.
  - apply IH with (1 := H0) in Hz. rewrite Nat.even_succ, <- Nat.negb_even.
    destruct (Nat.even i); exact Hz.
Qed.

Ltac use_has Hc H R := apply (has_check _ _ _ _ Hc) in H;
  let r := fresh "r" in let H1 := fresh in
  destruct H as [r [H1 R]]; destruct r; try discriminate H1; break; cbn [check] in R.

Lemma implied_sound : forall ks rs k d ps p kids,
  forallb (check ps kids) rs = true -> map kind_of ps = ks -> nth_error ps k = Some p ->
  implied ks rs k d = true -> meets false kids d p.
Proof.
  intros ks rs k d ps p kids Hc Hk Hp H.
  assert (Hkind : nth_error ks k = Some (kind_of p)) by (subst ks; apply map_nth_error, Hp).
  destruct d; cbn [implied] in H.
  - apply orb_true_iff in H. destruct H as [H | H].
    + use_has Hc H R. rewrite Hp in R. destruct p as [[x|]| | | | | |]; try discriminate. break.
      exists x. split; [reflexivity|]. split; [|apply contains_ok; assumption].
      eexists. split; [eassumption|]. apply is_a_sound. assumption.
    + break. use_has Hc H R. use_has Hc H0 R0. rewrite Hp in *.
      destruct p as [[x|]| | | | | |]; try discriminate.
      exists x. split; [reflexivity|]. split; [|apply contains_ok; assumption].
      match goal with H : _ || _ = true |- _ => apply orb_true_iff in H; destruct H end;
        eexists; (split; [|apply is_a_sound; eassumption]); assumption.
  - apply orb_true_iff in H. destruct H as [H | H].
    + use_has Hc H R. rewrite Hp in R. destruct p as [[x|]| | | | | |]; try discriminate; break;
        intros y Hy; try discriminate. injection Hy as <-.
      split; [|apply contains_ok; assumption].
      eexists. split; [eassumption|]. apply is_a_sound. assumption.
    + break. use_has Hc H R. use_has Hc H0 R0. rewrite Hp in *.
      destruct p as [[x|]| | | | | |]; try discriminate; intros y Hy; try discriminate.
      injection Hy as <-. split; [|apply contains_ok; assumption].
      match goal with H : _ || _ = true |- _ => apply orb_true_iff in H; destruct H end;
        eexists; (split; [|apply is_a_sound; eassumption]); assumption.
  - use_has Hc H R. rewrite Hp in R. destruct p; try discriminate. break.
    intros x Hx. split; [|discriminate]. eexists. split; [eassumption|]. apply is_a_sound.
    unfold all_a in *. rewrite forallb_forall in *. auto.
  - rewrite Hkind in H. destruct p; try discriminate H. cbn. intros x _ E. discriminate E.
  - use_has Hc H R. rewrite Hp in R. destruct p; try discriminate. intros i x Hx. split; [|discriminate].
    eexists. split; [left; reflexivity|]. apply is_a_sound. eapply pairs_nth; eassumption.
  - break. use_has Hc H R. use_has Hc H0 R0. rewrite Hp in *. destruct p; try discriminate.
    split; [assumption|]. intros i x Hx. pose proof (alternate_nth _ _ _ _ ltac:(eassumption) _ _ Hx) as [A1 A2].
    split; [|apply contains_ok, A2]. eexists. split; [left; reflexivity|]. apply is_a_sound, A1.
  - use_has Hc H R. rewrite Hp in R. destruct p as [| | | |[o|]| |]; try discriminate R. cbn. discriminate.
  - use_has Hc H R. rewrite Hp in R. destruct p as [| | | | |[|o l]|]; try discriminate R. cbn. discriminate.
  - rewrite Hkind in H. destruct p; try discriminate; exact I.
Qed.

Definition dev (t : asttype) (k : nat) : bool :=
  existsb (fun p => type_eqb t (fst p) && Nat.eqb k (snd p)) undocumented.

Lemma dev_in : forall t k, dev t k = true -> In (t, k) undocumented.
Proof.
  intros t k H. apply existsb_exists in H. destruct H as [[u j] [H1 H2]]. cbn in H2. break. exact H1.
Qed.

(** every documented parameter is enforced or listed *)
Definition enforced (t : asttype) : bool :=
  match doc_params t, ctor_kinds t with
  | Some ds, Some ks =>
      Nat.eqb (List.length ds) (List.length ks) &&
      forallb (fun k => dev t k || match nth_error ds k with
                                   | Some d => implied ks (ctor_reqs t) k d
                                   | None => true
                                   end) (seq 0 (List.length ds))
  | None, None => true
  | _, _ => false
  end.

Lemma all_enforced : forall t, enforced t = true.
Proof. destruct t; reflexivity. Qed.

Lemma construct_inv : forall id t ps kids rng n, construct id t ps kids rng = Some n ->
  exists ks, ctor_kinds t = Some ks /\ map kind_of ps = ks /\ forallb (check ps kids) (ctor_reqs t) = true /\
  n = Node id t rng (map to_field ps) kids 0.
Proof.
  intros id t ps kids rng n. unfold construct. destruct (ctor_kinds t) as [ks|]; [|discriminate].
  destruct (kinds_eqb (map kind_of ps) ks) eqn:E1; [|discriminate].
  destruct (forallb (check ps kids) (ctor_reqs t)) eqn:E2; [|discriminate]. cbn.
  intros H. injection H as <-. apply kinds_eqb_eq in E1. eauto.
Qed.

Lemma construct_meets : forall id t ps kids rng n, construct id t ps kids rng = Some n ->
  exists ds, doc_params t = Some ds /\ List.length ds = List.length ps /\
  forall k d p, nth_error ds k = Some d -> nth_error ps k = Some p -> ~ In (t, k) undocumented ->
  meets false kids d p.
Proof.
  intros id t ps kids rng n H. apply construct_inv in H. destruct H as [ks [H1 [H2 [H3 _]]]].
  pose proof (all_enforced t) as E. unfold enforced in E. rewrite H1 in E.
  destruct (doc_params t) as [ds|]; [|discriminate]. break. exists ds. split; [reflexivity|].
  rewrite map_length in *. split; [assumption|]. intros k d p Hd Hp Hu.
  match goal with H : forallb _ (seq _ _) = true |- _ => rename H into F end.
  rewrite forallb_forall in F. specialize (F k). rewrite Hd in F.
  assert (Hk : In k (seq 0 (List.length ds))).
  { apply in_seq. split; [lia|]. cbn. apply nth_error_Some. congruence. }
  specialize (F Hk). apply orb_true_iff in F. destruct F as [F | F]; [apply dev_in in F; contradiction|].
  eapply implied_sound; eauto.
Qed.

(** what the constructor stored is what the accessors read *)
Lemma construct_stores : forall id t ps kids rng n, construct id t ps kids rng = Some n ->
  nid n = id /\ nty n = t /\ nrng n = rng /\ nkids n = kids /\ nflds n = map to_field ps.
Proof.
  intros id t ps kids rng n H. apply construct_inv in H. destruct H as [ks [_ [_ [_ ->]]]]. cbn. auto.
Qed.

(** ** Cloning *)

Fixpoint clone_list (n : nat) (ks : list node) : clone_out (list node * nat) :=
  match ks with
  | [] => ClOk ([], n)
  | k :: ks =>
      match clone n k with
      | ClOk (k', n1) =>
          match clone_list n1 ks with
          | ClOk (ks', n2) => ClOk (k' :: ks', n2)
          | ClHang => ClHang | ClFail => ClFail | ClUb => ClUb
          end
      | ClHang => ClHang | ClFail => ClFail | ClUb => ClUb
      end
  end.

Lemma clone_eq : forall n i ty r f ks o, clone n (Node i ty r f ks o) =
  match clone_list n ks with
  | ClOk (cks, n1) =>
      match clone_call ty with
      | None => ClUb
      | Some (ty', cps) =>
          match eval_cparams f ks cks cps with
          | ClOk ps =>
              match construct n1 ty' ps (if terminal ty' then [] else cks) r with
              | Some c => ClOk (c, S n1)
              | None => ClFail
              end
          | ClHang => ClHang | ClFail => ClFail | ClUb => ClUb
          end
      end
  | ClHang => ClHang | ClFail => ClFail | ClUb => ClUb
  end.
Proof.
  intros. cbn [clone].
  match goal with |- match ?g n ks with _ => _ end = _ =>
    assert (E : forall ks n, g n ks = clone_list n ks) end.
  { clear. induction ks as [|k ks IH]; intros n; [reflexivity|]. cbn [clone_list].
    destruct (clone n k) as [[k' n1]| | |]; reflexivity. }
  rewrite E. reflexivity.
Qed.

Ltac inv_cl H := match type of H with
  | context [match ?e with _ => _ end] => destruct e eqn:?; try discriminate H
  end.

Lemma clone_inv : forall n i ty r f ks o c m, clone n (Node i ty r f ks o) = ClOk (c, m) ->
  exists cks n1 ty' cps ps, clone_list n ks = ClOk (cks, n1) /\ clone_call ty = Some (ty', cps) /\
    eval_cparams f ks cks cps = ClOk ps /\
    construct n1 ty' ps (if terminal ty' then [] else cks) r = Some c /\ m = S n1.
Proof.
  intros n i ty r f ks o c m H. rewrite clone_eq in H.
  destruct (clone_list n ks) as [[cks n1]| | |] eqn:E1; try discriminate H.
  destruct (clone_call ty) as [[ty' cps]|] eqn:E2; try discriminate H.
  destruct (eval_cparams f ks cks cps) as [ps| | |] eqn:E3; try discriminate H.
  destruct (construct n1 ty' ps _ r) as [c'|] eqn:E4; try discriminate H. injection H as <- <-.
  exists cks, n1, ty', cps, ps. auto.
Qed.

Lemma clone_list_inv : forall n k ks cs m, clone_list n (k :: ks) = ClOk (cs, m) ->
  exists k' n1 ks', clone n k = ClOk (k', n1) /\ clone_list n1 ks = ClOk (ks', m) /\ cs = k' :: ks'.
Proof.
  intros n k ks cs m H. cbn in H. destruct (clone n k) as [[k' n1]| | |] eqn:E1; try discriminate H.
  destruct (clone_list n1 ks) as [[ks' n2]| | |] eqn:E2; try discriminate H. injection H as <- <-.
  exists k', n1, ks'. auto.
Qed.

Lemma clone_list_length : forall ks n cs m, clone_list n ks = ClOk (cs, m) -> List.length cs = List.length ks.
Proof.
  induction ks as [|k ks IH]; intros n cs m H; [injection H as <- <-; reflexivity|].
  apply clone_list_inv in H. destruct H as [k' [n1 [ks' [_ [H ->]]]]]. cbn. f_equal. eapply IH, H.
Qed.

(** the arguments of a clone call, by position *)
Definition cp_pos (p : cparam) : nat :=
  match p with CpField k | CpStr k | CpChild k | CpOpt k | CpOptInv k | CpList k | CpListHalf k => k end.
Definition cp_good (p : cparam) : bool :=
  match p with CpOptInv _ | CpListHalf _ => false | _ => true end.
Definition cp_kind (p : cparam) (k : pkind) : bool :=
  match p, k with
  | CpField _, (KBool | KDir | KOper | KOpers) | CpStr _, KStr
  | (CpChild _ | CpOpt _ | CpOptInv _), KNode | (CpList _ | CpListHalf _), KList => true
  | _, _ => false
  end.

Definition clone_regular (t : asttype) : bool :=
  match clone_call t, ctor_kinds t with
  | Some (t', cps), Some ks =>
      Nat.eqb (List.length cps) (List.length ks) &&
      forallb (fun x => let '(i, (p, k)) := x in Nat.eqb (cp_pos p) i && cp_kind p k)
              (combine (seq 0 (List.length cps)) (combine cps ks)) &&
      (tmem t (miscloned ++ half_cloned) ||
       (type_eqb t t' && forallb cp_good cps))
  | None, None => true
  | _, _ => false
  end.

Lemma all_regular : forall t, clone_regular t = true.
Proof. destruct t; reflexivity. Qed.

Definition field_kind (f : field) : pkind :=
  match f with
  | FNode _ => KNode | FList _ => KList | FBool _ => KBool | FDir _ => KDir
  | FOper _ => KOper | FOpers _ => KOpers | FStr _ => KStr
  end.

Lemma field_kind_of : forall p, field_kind (to_field p) = kind_of p.
Proof. destruct p; reflexivity. Qed.

Lemma cstr_same : forall s, ~ In "000"%char s -> cstr s = s.
Proof.
  induction s as [|a s IH]; intros H; [reflexivity|]. cbn. destruct (beq a "000") eqn:E.
  - apply Ascii.eqb_eq in E. subst. exfalso. apply H. left. reflexivity.
  - f_equal. apply IH. intros A. apply H. right. exact A.
Qed.

Lemma ref_clone_ok : forall ks cks x c, ref_clone ks cks x = ClOk c ->
  exists k ks' c0 cks', ks = k :: ks' /\ cks = c0 :: cks' /\ x = Some (nid k) /\ c = c0.
Proof.
  intros ks cks x c. unfold ref_clone, child_index. destruct ks as [|k ks]; [discriminate|].
  destruct x as [x|]; [|discriminate]. destruct (Nat.eqb (nid k) x) eqn:E; [|discriminate].
  apply Nat.eqb_eq in E. subst. destruct cks as [|c0 cks]; cbn; [discriminate|]. intros H. injection H as ->.
  exists k, ks, c, cks. auto.
Qed.

Lemma list_clone_ok : forall ks cks l cs, list_clone ks cks l = ClOk cs ->
  Forall2 (fun i c => exists k ks' cks', ks = k :: ks' /\ cks = c :: cks' /\ i = nid k) l cs.
Proof.
  induction l as [|x l IH]; intros cs H; cbn in H; [injection H as <-; constructor|].
  destruct (ref_clone ks cks (Some x)) as [c| | |] eqn:E; try discriminate H.
  destruct (list_clone ks cks l) as [cs'| | |] eqn:E2; try discriminate H. injection H as <-.
  constructor; [|apply IH; reflexivity]. apply ref_clone_ok in E.
  destruct E as [k [ks' [c0 [cks' [-> [-> [H1 ->]]]]]]]. injection H1 as ->. eauto 6.
Qed.

Lemma same_ref_first : forall k ks c cks, same_ref (k :: ks) (c :: cks) (nid k) (nid c).
Proof. intros. exists 0, k, c. auto. Qed.

Lemma eval_cparam_same : forall flds ks cks p q f, eval_cparam flds ks cks p = ClOk q -> cp_good p = true ->
  nth_error flds (cp_pos p) = Some f -> cp_kind p (field_kind f) = true ->
  (forall s, f = FStr s -> ~ In "000"%char s) -> same_field ks cks f (to_field q).
Proof.
  intros flds ks cks p q f H Hg Hf Hk Hs.
  destruct p; cbn [cp_pos cp_good] in *; try discriminate Hg; cbn [eval_cparam] in H; rewrite Hf in H.
  - destruct f; try discriminate; injection H as <-; reflexivity.
  - destruct f; try discriminate; injection H as <-; cbn. symmetry. apply cstr_same, Hs. reflexivity.
  - destruct f; try discriminate. destruct (ref_clone ks cks o) as [c| | |] eqn:E; try discriminate.
    injection H as <-. apply ref_clone_ok in E. destruct E as [k0 [ks' [c0 [cks' [-> [-> [-> ->]]]]]]].
    cbn. apply same_ref_first.
  - destruct f; try discriminate. destruct o as [o|]; [|injection H as <-; exact I].
    destruct (ref_clone ks cks (Some o)) as [c| | |] eqn:E; try discriminate.
    injection H as <-. apply ref_clone_ok in E. destruct E as [k0 [ks' [c0 [cks' [-> [-> [A ->]]]]]]].
    injection A as ->. cbn. apply same_ref_first.
  - destruct f; try discriminate. destruct (list_clone ks cks l) as [cs| | |] eqn:E; try discriminate.
    injection H as <-. apply list_clone_ok in E. cbn. clear - E.
    induction E as [|i c l cs [k0 [ks' [cks' [-> [-> ->]]]]] E IH]; cbn; constructor; auto.
    apply same_ref_first.
Qed.

Lemma Forall2_nth : forall {A B} (R : A -> B -> Prop) l m, List.length l = List.length m ->
  (forall i a b, nth_error l i = Some a -> nth_error m i = Some b -> R a b) -> Forall2 R l m.
Proof.
  intros A B R. induction l as [|a l IH]; intros [|b m] Hl H; try discriminate Hl; constructor.
  - apply (H 0); reflexivity.
  - apply IH; [injection Hl; auto|]. intros i. apply (H (S i)).
Qed.

Lemma nth_combine : forall {A B} (l : list A) (m : list B) i a b, nth_error l i = Some a ->
  nth_error m i = Some b -> nth_error (combine l m) i = Some (a, b).
Proof.
  induction l as [|x l IH]; intros [|y m] [|i] a b H1 H2; try discriminate.
  - injection H1 as ->. injection H2 as ->. reflexivity.
  - apply IH; assumption.
Qed.

Lemma nth_error_seq0 : forall n i, i < n -> nth_error (seq 0 n) i = Some i.
Proof.
  intros n i H. rewrite (nth_error_nth' (seq 0 n) 0) by (rewrite seq_length; exact H).
  rewrite seq_nth by exact H. reflexivity.
Qed.

Lemma regular : forall t t' cps, clone_call t = Some (t', cps) -> exists ks, ctor_kinds t = Some ks /\
  List.length cps = List.length ks /\
  (forall i p k, nth_error cps i = Some p -> nth_error ks i = Some k -> cp_pos p = i /\ cp_kind p k = true) /\
  (~ In t (miscloned ++ half_cloned) -> t' = t /\ forallb cp_good cps = true).
Proof.
  intros t t' cps H. pose proof (all_regular t) as R. unfold clone_regular in R. rewrite H in R.
  destruct (ctor_kinds t) as [ks|]; [|discriminate]. exists ks. split; [reflexivity|].
  apply andb_true_iff in R. destruct R as [R R3]. apply andb_true_iff in R. destruct R as [R1 R2].
  apply Nat.eqb_eq in R1. split; [exact R1|]. split.
  - intros i p k Hp Hk. rewrite forallb_forall in R2. specialize (R2 (i, (p, k))).
    assert (A : In (i, (p, k)) (combine (seq 0 (List.length cps)) (combine cps ks))).
    { apply nth_error_In with i. apply nth_combine; [|apply nth_combine; assumption].
      apply nth_error_seq0. apply nth_error_Some. congruence. }
    specialize (R2 A). cbn in R2. break. auto.
  - intros Hn. apply orb_true_iff in R3. destruct R3 as [R3 | R3]; [apply tmem_in in R3; contradiction|].
    break. auto.
Qed.

Lemma eval_cparams_all : forall f ks cks cps ps, eval_cparams f ks cks cps = ClOk ps ->
  Forall2 (fun p q => eval_cparam f ks cks p = ClOk q) cps ps.
Proof.
  induction cps as [|p cps IH]; intros ps H; cbn in H; [injection H as <-; constructor|].
  destruct (eval_cparam f ks cks p) as [q| | |] eqn:E; try discriminate H.
  destruct (eval_cparams f ks cks cps) as [qs| | |] eqn:E2; try discriminate H. injection H as <-.
  constructor; auto.
Qed.

Lemma Forall2_length2 : forall {A B} (R : A -> B -> Prop) l m, Forall2 R l m -> List.length l = List.length m.
Proof. induction 1; cbn; congruence. Qed.

Lemma Forall2_nth_inv : forall {A B} (R : A -> B -> Prop) l m, Forall2 R l m -> forall i b,
  nth_error m i = Some b -> exists a, nth_error l i = Some a /\ R a b.
Proof.
  induction 1 as [|a b l m H _ IH]; intros [|i] c Hc; try discriminate.
  - injection Hc as <-. exists a. auto.
  - apply IH, Hc.
Qed.

Lemma built_fields : forall x, built x -> exists ks, ctor_kinds (nty x) = Some ks /\
  map field_kind (nflds x) = ks.
Proof.
  intros x [ps [H _]]. apply construct_inv in H. destruct H as [ks [H1 [H2 [_ H3]]]].
  exists ks. split; [exact H1|]. injection H3 as H3. rewrite H3, map_map. subst ks.
  apply map_ext, field_kind_of.
Qed.

Lemma fields_same : forall x t' cps cks ps, clonable x -> clone_call (nty x) = Some (t', cps) ->
  eval_cparams (nflds x) (nkids x) cks cps = ClOk ps ->
  t' = nty x /\ Forall2 (same_field (nkids x) cks) (nflds x) (map to_field ps).
Proof.
  intros x t' cps cks ps [Hb [Hn Hs]] Hc He.
  destruct (regular _ _ _ Hc) as [ks [H1 [H2 [H3 H4]]]]. destruct (H4 Hn) as [-> H5]. split; [reflexivity|].
  destruct (built_fields x Hb) as [ks' [H6 H7]]. rewrite H1 in H6. injection H6 as <-.
  apply eval_cparams_all in He. pose proof (Forall2_length2 _ _ _ He) as L.
  apply Forall2_nth.
  - rewrite map_length, <- L, H2, <- H7, map_length. reflexivity.
  - intros i f g Hf Hg. rewrite nth_error_map in Hg. destruct (nth_error ps i) as [q|] eqn:Eq; [|discriminate].
    injection Hg as <-. destruct (Forall2_nth_inv _ _ _ He _ _ Eq) as [p [Hp Hpq]].
    assert (Hk : nth_error ks i = Some (field_kind f)) by (rewrite <- H7; apply map_nth_error, Hf).
    destruct (H3 _ _ _ Hp Hk) as [A1 A2]. eapply eval_cparam_same; [exact Hpq| | |exact A2|].
    + rewrite forallb_forall in H5. eapply H5, nth_error_In, Hp.
    + rewrite A1. exact Hf.
    + intros s ->. apply Hs. eapply nth_error_In, Hf.
Qed.

Lemma In_preorder_kid : forall i t r f ks o k x, In k ks -> In x (preorder k) ->
  In x (preorder (Node i t r f ks o)).
Proof. intros. rewrite preorder_eq. right. apply in_flat_map. eauto. Qed.

(** what cloning returns is a copy, with new nodes *)
Definition clone_good (t : node) : Prop := Forall clonable (preorder t) -> forall n c m,
  clone n t = ClOk (c, m) -> same t c /\ brand_new n m c /\ n <= m.

Lemma brand_new_list : forall ks, Forall clone_good ks -> Forall clonable (forest ks) -> forall n cs m,
  clone_list n ks = ClOk (cs, m) ->
  Forall2 same ks cs /\ NoDup (map nid (forest cs)) /\ Forall (fun x => n <= nid x < m) (forest cs) /\ n <= m.
Proof.
  induction 1 as [|k ks Hk _ IH]; intros Hc n cs m H.
  - injection H as <- <-. cbn. repeat split; constructor.
  - apply clone_list_inv in H. destruct H as [k' [n1 [ks' [E1 [E2 ->]]]]].
    rewrite forest_cons in Hc. apply Forall_app in Hc. destruct Hc as [Hc1 Hc2].
    destruct (Hk Hc1 _ _ _ E1) as [S1 [[N1 F1] L1]]. destruct (IH Hc2 _ _ _ E2) as [S2 [N2 [F2 L2]]].
    rewrite forest_cons. split; [constructor; assumption|]. rewrite map_app. split; [|split; [|lia]].
    + assert (D : forall a, In a (map nid (preorder k')) -> ~ In a (map nid (forest ks'))).
      { intros a A1 A2. apply in_map_iff in A1, A2. destruct A1 as [x [<- A1]], A2 as [y [A A2]].
        rewrite Forall_forall in F1, F2. specialize (F1 _ A1). specialize (F2 _ A2). lia. }
      clear - N1 N2 D. induction (map nid (preorder k')) as [|a l IH]; [exact N2|]. inversion N1; subst.
      cbn. constructor.
      * rewrite in_app_iff. intros [A | A]; [contradiction|]. apply (D a); [left; reflexivity|exact A].
      * apply IH; [assumption|]. intros b Hb. apply D. right. exact Hb.
    + apply Forall_app. split; eapply Forall_impl; [|exact F1| |exact F2]; cbn; intros; lia.
Qed.

Lemma clone_is_copy : forall t, clone_good t.
Proof.
  apply node_ind2. intros i t r f ks o IH Hc n c m H.
  rewrite preorder_eq in Hc. inversion Hc as [|x l Hx Hks]; subst.
  apply clone_inv in H. destruct H as [cks [n1 [ty' [cps [ps [E1 [E2 [E3 [E4 ->]]]]]]]]].
  destruct (fields_same (Node i t r f ks o) ty' cps cks ps Hx E2 E3) as [Et Ef]. cbn in Et, Ef. subst ty'.
  destruct (brand_new_list ks IH Hks _ _ _ E1) as [S1 [N1 [F1 L1]]].
  assert (Hcks : (if terminal t then [] else cks) = cks).
  { destruct (terminal t) eqn:E; [|reflexivity]. destruct Hx as [[ps0 [_ [_ [_ A]]]] _]. cbn in A.
    rewrite (A E) in E1. injection E1 as <- <-. reflexivity. }
  rewrite Hcks in E4. apply construct_inv in E4. destruct E4 as [_ [_ [_ [_ ->]]]].
  split; [constructor; assumption|]. split; [|lia]. split.
  - rewrite preorder_eq. cbn. constructor; [|exact N1]. intros A. apply in_map_iff in A.
    destruct A as [y [A1 A2]]. rewrite Forall_forall in F1. specialize (F1 _ A2). lia.
  - rewrite preorder_eq. constructor; [cbn; lia|]. eapply Forall_impl; [|exact F1]. cbn. intros; lia.
Qed.

(** ** Types that are never copied *)

Lemma inverted : forall t, In t miscloned -> t <> T_DROP_REL_PROP_CONSTRAINT ->
  exists t' cps k, clone_call t = Some (t', cps) /\ nth_error cps k = Some (CpOptInv k).
Proof.
  intros t H Hn. cbn in H. repeat (destruct H as [<- | H]).
  - do 2 eexists. exists 1. split; reflexivity.
  - do 2 eexists. exists 4. split; reflexivity.
  - do 2 eexists. exists 4. split; reflexivity.
  - do 2 eexists. exists 2. split; reflexivity.
  - do 2 eexists. exists 2. split; reflexivity.
  - congruence.
  - destruct H.
Qed.

Lemma Forall2_nth_inv_l : forall {A B} (R : A -> B -> Prop) l m, Forall2 R l m -> forall i a,
  nth_error l i = Some a -> exists b, nth_error m i = Some b /\ R a b.
Proof.
  induction 1 as [|a b l m H _ IH]; intros [|i] c Hc; try discriminate.
  - injection Hc as <-. exists b. auto.
  - apply IH, Hc.
Qed.

Lemma never_copied : forall t n c m, In (nty t) miscloned -> clone n t = ClOk (c, m) -> ~ same t c.
Proof.
  intros [i t r f ks o] n c m Ht H S. cbn in Ht. apply clone_inv in H.
  destruct H as [cks [n1 [ty' [cps [ps [E1 [E2 [E3 [E4 ->]]]]]]]]].
  apply construct_inv in E4. destruct E4 as [_ [_ [_ [_ ->]]]]. inversion S; subst.
  destruct (type_eqb ty' T_DROP_REL_PROP_CONSTRAINT) eqn:Ed.
  - apply type_eqb_eq in Ed. subst. discriminate E2.
  - assert (Hd : ty' <> T_DROP_REL_PROP_CONSTRAINT) by (intros ->; discriminate Ed).
    destruct (inverted _ Ht Hd) as [t' [cps' [k [A1 A2]]]]. rewrite E2 in A1. injection A1 as <- <-.
    apply eval_cparams_all in E3. destruct (Forall2_nth_inv_l _ _ _ E3 _ _ A2) as [q [Q1 Q2]].
    match goal with H : Forall2 (same_field _ _) _ _ |- _ => rename H into Hf end.
    destruct (Forall2_nth_inv _ _ _ Hf k (to_field q)) as [g [G1 G2]];
      [rewrite nth_error_map, Q1; reflexivity|].
    cbn [eval_cparam] in Q2. rewrite G1 in Q2. destruct g as [[x|]| | | | | |]; try discriminate Q2.
    + injection Q2 as <-. exact G2.
    + destruct (ref_clone ks cks None) as [y| | |] eqn:E; try discriminate Q2. apply ref_clone_ok in E.
      destruct E as [? [? [? [? [_ [_ [E _]]]]]]]. discriminate E.
Qed.

(** ** When cloning returns *)

Definition nrel (cks : list node) (a b : node) : Prop := nty b = nty a /\ In b cks.
Definition prel (cks : list node) (p q : aparam) : Prop :=
  match p, q with
  | PN None, PN None => True
  | PN (Some a), PN (Some b) => nrel cks a b
  | PL l, PL m => Forall2 (nrel cks) l m
  | PB a, PB b => a = b
  | PD a, PD b => a = b
  | PO a, PO b => a = b
  | POs a, POs b => a = b
  | PS _, PS _ => True
  | _, _ => False
  end.

Lemma is_a_nty : forall a b t, nty b = nty a -> is_a b t = is_a a t.
Proof. intros a b t H. unfold is_a. rewrite H. reflexivity. Qed.

Lemma in_contains : forall ks x, In x ks -> contains ks x = true.
Proof. intros. apply contains_ok. exists x. auto. Qed.

Lemma all_a_rel : forall cks l m t, Forall2 (nrel cks) l m -> all_a l t = true -> all_a m t = true.
Proof.
  induction 1 as [|a b l m [H _] _ IH]; intros A; [reflexivity|]. cbn in *. break.
  rewrite (is_a_nty a b t H), H0. cbn. apply IH. assumption.
Qed.

Lemma firstn_Forall2 : forall {A B} (R : A -> B -> Prop) l m n, Forall2 R l m ->
  Forall2 R (firstn n l) (firstn n m).
Proof. intros A B R l m n H. revert n. induction H; intros [|n]; cbn; constructor; auto. Qed.

Lemma pairs_rel : forall cks t1 t2 l m, Forall2 (nrel cks) l m -> pairs_a l t1 t2 = true ->
  pairs_a m t1 t2 = true.
Proof.
  intros cks t1 t2. fix IH 1. intros [|a [|a2 l]] m H A.
  - inversion H. reflexivity.
  - discriminate.
  - inversion H as [|? b ? m' [H1 _] H2]; subst. inversion H2 as [|? b2 ? m'' [H3 _] H4]; subst.
    cbn [pairs_a] in *. break. rewrite (is_a_nty a b t1 H1), (is_a_nty a2 b2 t2 H3).
    repeat (apply andb_true_iff; split); try assumption. apply (IH l m'' H4). assumption.
Qed.

Lemma alternate_rel : forall cks l m, Forall2 (nrel cks) l m -> forall ks t1 t2,
  alternate l ks t1 t2 = true -> alternate m cks t1 t2 = true.
Proof.
  induction 1 as [|a b l m [H1 H2] _ IH]; intros ks t1 t2 A; [reflexivity|]. cbn [alternate] in *. break.
  rewrite (is_a_nty a b t1 H1), in_contains by exact H2. rewrite H. cbn. eapply IH. eassumption.
Qed.

Lemma check_rel : forall ps qs ks cks r, Forall2 (prel cks) ps qs -> List.length cks = List.length ks ->
  check ps ks r = true -> check qs cks r = true.
Proof.
  intros ps qs ks cks r H L C.
  assert (N : forall k p, nth_error ps k = Some p -> exists q, nth_error qs k = Some q /\ prel cks p q)
    by (intros; eapply Forall2_nth_inv_l; eassumption).
  destruct r; cbn [check] in *;
    repeat match type of C with
    | context [nth_error ps ?k] =>
        let p := fresh "p" in let E := fresh "E" in
        destruct (nth_error ps k) as [p|] eqn:E; [|discriminate C];
        destruct (N _ _ E) as [? [-> ?]]
    end;
    repeat match goal with
    | H : prel _ ?p ?q |- _ => first
        [ is_var p; destruct p as [[?|]|?|[|]| |[?|]|[|? ?]|]; try discriminate C
        | is_var q; destruct q as [[?|]|?|?| |?| ?|]; cbn in H; try contradiction H; try subst ]
    end; break; try reflexivity;
    repeat match goal with H : nrel _ _ _ |- _ => destruct H end;
    repeat match goal with
    | A : nty ?b = nty ?a |- context [is_a ?b ?t] => rewrite (is_a_nty a b t A)
    | A : In ?b ?l |- context [contains ?l ?b] => rewrite (in_contains l b A)
    end; rewrite ?andb_true_r; try assumption.
  all: try match goal with A : Forall2 (nrel _) ?l ?m |- _ => first
    [ rewrite <- (Forall2_length2 _ _ _ A), L; rewrite (all_a_rel _ _ _ _ A) by assumption; assumption
    | rewrite <- (Forall2_length2 _ _ _ A), L;
        rewrite (all_a_rel _ _ _ _ (firstn_Forall2 _ _ _ _ A)) by assumption; assumption
    | eapply all_a_rel; eassumption
    | eapply pairs_rel; eassumption
    | eapply alternate_rel; eassumption
    | rewrite <- (Forall2_length2 _ _ _ A); assumption
    | destruct l; [discriminate C|]; inversion A; reflexivity ] end.
  all: try reflexivity.
  all: destruct (nth_error ps k) as [p2|] eqn:E2; [|discriminate C];
    destruct (N _ _ E2) as [q2 [-> R]]; destruct p2 as [|[|? ?]| | | | |]; try discriminate C;
    destruct q2; cbn in R; try contradiction R; try reflexivity;
    try (rewrite <- (Forall2_length2 _ _ _ R); exact C); inversion R; reflexivity.
Qed.

Lemma combine_kinds : forall cks ps qs, Forall2 (prel cks) ps qs -> map kind_of qs = map kind_of ps.
Proof.
  induction 1 as [|p q ps qs H _ IH]; [reflexivity|]. cbn. f_equal; [|exact IH].
  destruct p as [[|]|?|?|?|?|?|?], q as [[|]|?|?|?|?|?|?]; cbn in H; try contradiction; reflexivity.
Qed.

Lemma kinds_eqb_refl : forall a, kinds_eqb a a = true.
Proof. induction a as [|[] a IH]; cbn; auto. Qed.

Lemma construct_rel : forall id id' t ps qs ks cks r n, construct id t ps ks r = Some n ->
  Forall2 (prel cks) ps qs -> List.length cks = List.length ks ->
  exists m, construct id' t qs cks r = Some m.
Proof.
  intros id id' t ps qs ks cks r n H R L. apply construct_inv in H. destruct H as [k [H1 [H2 [H3 _]]]].
  unfold construct. rewrite H1, (combine_kinds _ _ _ R), H2, kinds_eqb_refl. cbn [andb].
  replace (forallb (check qs cks) (ctor_reqs t)) with true; [eauto|]. symmetry.
  rewrite forallb_forall in *. intros x Hx. eapply check_rel; eauto.
Qed.

(** pointers of one field *)
Definition fptrs (f : field) : list nat :=
  match f with FNode (Some x) => [x] | FList l => l | _ => [] end.

Lemma eval_first : forall flds ks cks p q f, eval_cparam flds ks cks p = ClOk q -> cp_good p = true ->
  nth_error flds (cp_pos p) = Some f -> cp_kind p (field_kind f) = true ->
  forall i, In i (fptrs f) -> exists k ks', ks = k :: ks' /\ nid k = i.
Proof.
  intros flds ks cks p q f H Hg Hf Hk i Hi.
  destruct p; cbn [cp_pos cp_good] in *; try discriminate Hg; cbn [eval_cparam] in H; rewrite Hf in H;
    destruct f; try discriminate; try contradiction Hi.
  - destruct o as [o|]; [|contradiction Hi]. destruct Hi as [<- | []].
    destruct (ref_clone ks cks (Some o)) as [c| | |] eqn:E; try discriminate.
    apply ref_clone_ok in E. destruct E as [k0 [ks' [c0 [cks' [-> [_ [A _]]]]]]]. injection A as ->. eauto.
  - destruct o as [o|]; [|contradiction Hi]. destruct Hi as [<- | []].
    destruct (ref_clone ks cks (Some o)) as [c| | |] eqn:E; try discriminate.
    apply ref_clone_ok in E. destruct E as [k0 [ks' [c0 [cks' [-> [_ [A _]]]]]]]. injection A as ->. eauto.
  - cbn in Hi. destruct (list_clone ks cks l) as [cs| | |] eqn:E; try discriminate.
    apply list_clone_ok in E. clear - E Hi.
    induction E as [|j c l cs [k0 [ks' [cks' [-> [_ ->]]]]] E IH]; [destruct Hi|].
    destruct Hi as [<- | Hi]; [eauto|apply IH, Hi].
Qed.

Lemma returns_first : forall t, Forall clonable (preorder t) -> forall n c m, clone n t = ClOk (c, m) ->
  Forall points_first (preorder t).
Proof.
  apply (node_ind2 (fun t => Forall clonable (preorder t) -> forall n c m, clone n t = ClOk (c, m) ->
    Forall points_first (preorder t))).
  intros i t r f ks o IH Hc n c m H. rewrite preorder_eq in *. inversion Hc as [|x l Hx Hks]; subst.
  apply clone_inv in H. destruct H as [cks [n1 [ty' [cps [ps [E1 [E2 [E3 [E4 ->]]]]]]]]].
  constructor.
  - intros j Hj. cbn [nflds nkids] in *. apply in_flat_map in Hj. destruct Hj as [g [G1 G2]].
    apply In_nth_error in G1. destruct G1 as [k G1].
    destruct Hx as [Hb [Hn Hs]]. destruct (regular _ _ _ E2) as [kk [H1 [H2 [H3 H4]]]].
    destruct (H4 Hn) as [-> H5]. destruct (built_fields _ Hb) as [ks' [H6 H7]]. cbn in H6, H7.
    rewrite H1 in H6. injection H6 as <-. apply eval_cparams_all in E3.
    assert (Hk : nth_error kk k = Some (field_kind g)) by (rewrite <- H7; apply map_nth_error, G1).
    destruct (nth_error cps k) as [p|] eqn:Ep.
    2:{ apply nth_error_None in Ep. assert (k < List.length kk) by (apply nth_error_Some; congruence). lia. }
    destruct (H3 _ _ _ Ep Hk) as [A1 A2]. destruct (Forall2_nth_inv_l _ _ _ E3 _ _ Ep) as [q [Q1 Q2]].
    eapply (eval_first _ _ _ _ _ g Q2); [| |exact A2|exact G2].
    + rewrite forallb_forall in H5. eapply H5, nth_error_In, Ep.
    + rewrite A1. exact G1.
  - clear Hx E2 E3 E4 Hc. revert n cks n1 E1. induction IH as [|k ks Hk _ IHl]; intros n cks n1 E1; [constructor|].
    apply clone_list_inv in E1. destruct E1 as [k' [n2 [ks' [A1 [A2 ->]]]]].
    rewrite forest_cons in *. apply Forall_app in Hks. destruct Hks as [B1 B2].
    apply Forall_app. split; [eapply Hk; eassumption|]. eapply IHl; eassumption.
Qed.

Definition requires_node (k : nat) (r : req) : bool :=
  match r with RqChild j _ | RqContains j | RqEither j _ _ | RqType j _ => Nat.eqb j k | _ => false end.

Definition child_required (t : asttype) : bool :=
  match clone_call t with
  | Some (_, cps) => tmem t (miscloned ++ half_cloned) || forallb (fun p => match p with
      | CpChild k => existsb (requires_node k) (ctor_reqs t)
      | _ => true end) cps
  | None => true
  end.

Lemma all_child_required : forall t, child_required t = true.
Proof. destruct t; reflexivity. Qed.

Lemma required_some : forall ps ks k r, requires_node k r = true -> check ps ks r = true ->
  exists x, nth_error ps k = Some (PN (Some x)).
Proof.
  intros ps ks k r H C. destruct r; cbn in H; try discriminate H; break; cbn [check] in C;
    destruct (nth_error ps k) as [[[x|]| | | | | |]|]; try discriminate C; eauto.
Qed.

Lemma same_nty : forall a b, same a b -> nty b = nty a.
Proof. intros a b H. inversion H; reflexivity. Qed.

Lemma NoDup_kids_first : forall k ks a, NoDup (map nid (k :: ks)) -> In a (k :: ks) -> nid k = nid a -> a = k.
Proof.
  intros k ks a N [H | H] E; [auto|]. inversion N; subst. exfalso. apply H2. rewrite E. apply in_map, H.
Qed.

Definition first_of (ks : list node) (i : nat) : Prop := exists k ks', ks = k :: ks' /\ nid k = i.

Lemma ref_first : forall ks cks a, Forall2 same ks cks -> NoDup (map nid ks) -> In a ks ->
  first_of ks (nid a) -> exists b, ref_clone ks cks (Some (nid a)) = ClOk b /\ nrel cks a b.
Proof.
  intros ks cks a F N Ha [k [ks' [-> E]]]. inversion F as [|? b ? cks' S F']; subst.
  unfold ref_clone. cbn [child_index]. rewrite E, Nat.eqb_refl. cbn. exists b. split; [reflexivity|].
  rewrite (NoDup_kids_first _ _ _ N Ha E). split; [apply same_nty, S|left; reflexivity].
Qed.

Lemma list_first : forall ks cks l, Forall2 same ks cks -> NoDup (map nid ks) ->
  (forall a, In a l -> In a ks) -> (forall a, In a l -> first_of ks (nid a)) ->
  exists cs, list_clone ks cks (map nid l) = ClOk cs /\ Forall2 (nrel cks) l cs.
Proof.
  intros ks cks l F N. induction l as [|a l IH]; intros H1 H2; [exists []; split; [reflexivity|constructor]|].
  destruct (ref_first ks cks a F N) as [b [B1 B2]]; [apply H1; left; reflexivity|apply H2; left; reflexivity|].
  destruct IH as [cs [C1 C2]]; [intros; apply H1; right; assumption|intros; apply H2; right; assumption|].
  exists (b :: cs). cbn. rewrite B1, C1. auto.
Qed.

Lemma eval_ok : forall flds ks cks p p0, cp_good p = true -> nth_error flds (cp_pos p) = Some (to_field p0) ->
  cp_kind p (kind_of p0) = true -> Forall2 same ks cks -> NoDup (map nid ks) ->
  (forall y, p0 = PN (Some y) -> In y ks) -> (forall l y, p0 = PL l -> In y l -> In y ks) ->
  (forall i, In i (fptrs (to_field p0)) -> first_of ks i) ->
  (forall k, p = CpChild k -> p0 <> PN None) ->
  exists q, eval_cparam flds ks cks p = ClOk q /\ prel cks p0 q.
Proof.
  intros flds ks cks p p0 Hg Hf Hk F N H1 H2 H3 H4.
  destruct p; cbn [cp_good cp_pos] in *; try discriminate Hg; cbn [eval_cparam]; rewrite Hf;
    destruct p0 as [[a|]|l|?|?|?|?|?]; try discriminate Hk; cbn [to_field option_map];
    try (eexists; split; [reflexivity|]; cbn; auto; fail).
  - destruct (ref_first ks cks a F N) as [b [-> B]]; [auto|apply H3; left; reflexivity|]. eexists. split; [reflexivity|exact B].
  - exfalso. apply (H4 k); reflexivity.
  - destruct (ref_first ks cks a F N) as [b [-> B]]; [auto|apply H3; left; reflexivity|]. eexists. split; [reflexivity|exact B].
  - destruct (list_first ks cks l F N) as [cs [-> C]].
    + intros b Hb. eapply H2; eauto.
    + intros b Hb. apply H3. cbn. apply in_map, Hb.
    + eexists. split; [reflexivity|exact C].
Qed.

Lemma evals_ok : forall flds ks cks cps ps,
  (forall i p p0, nth_error cps i = Some p -> nth_error ps i = Some p0 ->
     exists q, eval_cparam flds ks cks p = ClOk q /\ prel cks p0 q) -> List.length cps = List.length ps ->
  exists qs, eval_cparams flds ks cks cps = ClOk qs /\ Forall2 (prel cks) ps qs.
Proof.
  intros flds ks cks. induction cps as [|p cps IH]; intros [|p0 ps] H L; try discriminate L.
  - exists []. split; [reflexivity|constructor].
  - destruct (H 0 p p0) as [q [Q1 Q2]]; [reflexivity|reflexivity|].
    destruct (IH ps) as [qs [R1 R2]]; [intros i; apply (H (S i))|injection L; auto|].
    exists (q :: qs). cbn. rewrite Q1, R1. auto.
Qed.

Lemma NoDup_app_split : forall {A} (l m : list A), NoDup (l ++ m) -> NoDup l /\ NoDup m.
Proof.
  induction l as [|a l IH]; intros m H; [split; [constructor|exact H]|]. inversion H; subst.
  apply IH in H3. destruct H3. split; [|assumption]. constructor; [|assumption].
  intros A1. apply H2, in_app_iff. auto.
Qed.

Lemma preorder_self : forall t, exists l, preorder t = t :: l.
Proof. intros [i t r f ks o]. eexists. apply preorder_eq. Qed.

Lemma NoDup_kids : forall ks, NoDup (map nid (forest ks)) -> NoDup (map nid ks) /\
  Forall (fun k => NoDup (map nid (preorder k))) ks.
Proof.
  induction ks as [|k ks IH]; intros H; [split; constructor|].
  rewrite forest_cons, map_app in H. destruct (NoDup_app_split _ _ H) as [H1 H2].
  destruct (IH H2) as [I1 I2]. split; [|constructor; assumption].
  cbn. constructor; [|exact I1]. intros A. destruct (preorder_self k) as [l E]. rewrite E in H. cbn in H.
  inversion H; subst. apply H4, in_app_iff. right. apply in_map_iff in A. destruct A as [x [<- A]].
  apply in_map. apply in_flat_map. exists x. split; [exact A|]. destruct (preorder_self x) as [l' ->]. left. reflexivity.
Qed.

Lemma first_returns : forall t, Forall clonable (preorder t) -> Forall points_first (preorder t) ->
  NoDup (map nid (preorder t)) -> forall n, exists c m, clone n t = ClOk (c, m).
Proof.
  apply (node_ind2 (fun t => Forall clonable (preorder t) -> Forall points_first (preorder t) ->
  NoDup (map nid (preorder t)) -> forall n, exists c m, clone n t = ClOk (c, m))).
  intros i t r f ks o IH Hc Hp Hn n. rewrite preorder_eq in *.
  inversion Hc as [|x l Hx Hks]; subst. inversion Hp as [|x l Px Pks]; subst.
  cbn [map] in Hn. inversion Hn as [|x l Nx Nks]; subst. destruct (NoDup_kids ks Nks) as [N1 N2].
  assert (K : exists cks n1, clone_list n ks = ClOk (cks, n1)).
  { clear Hx Px Hc Hp Hn Nx Nks N1. revert n. induction IH as [|k ks Hk _ IHl]; intros n; [cbn; eauto|].
    rewrite forest_cons in *. apply Forall_app in Hks, Pks. destruct Hks as [A1 A2], Pks as [B1 B2].
    inversion N2; subst. destruct (Hk A1 B1 H1 n) as [k' [n1 E1]]. cbn [clone_list]. rewrite E1.
    destruct (IHl A2 B2 H2 n1) as [cks [n2 E2]]. rewrite E2. eauto. }
  destruct K as [cks [n1 E1]]. rewrite clone_eq, E1.
  assert (S1 : Forall2 same ks cks).
  { eapply brand_new_list; [|exact Hks|exact E1]. apply Forall_forall. intros y _. apply clone_is_copy. }
  pose proof (clone_list_length _ _ _ _ E1) as L.
  destruct Hx as [Hb [Hnot Hs]]. pose proof Hb as Hb2. destruct Hb as [ps [B1 [B2 [B3 B4]]]].
  cbn [nid nty nkids nflds nrng] in *.
  pose proof B1 as B1'. apply construct_inv in B1'. destruct B1' as [kk [K1 [K2 [K3 K4]]]].
  injection K4 as K4.
  destruct (clone_call t) as [[ty' cps]|] eqn:E2.
  2:{ exfalso. pose proof (all_regular t) as A. unfold clone_regular in A. rewrite E2, K1 in A. discriminate A. }
  destruct (regular _ _ _ E2) as [kk' [H1 [H2 [H3 H4]]]]. rewrite K1 in H1. injection H1 as <-.
  destruct (H4 Hnot) as [-> H5].
  destruct (evals_ok f ks cks cps ps) as [qs [Q1 Q2]].
  { intros j p p0 Hj Hj0. assert (Hkj : nth_error kk j = Some (kind_of p0)) by (rewrite <- K2; apply map_nth_error, Hj0).
    destruct (H3 _ _ _ Hj Hkj) as [A1 A2].
    assert (Hfj : nth_error f (cp_pos p) = Some (to_field p0)) by (rewrite A1, K4; apply map_nth_error, Hj0).
    apply eval_ok; auto.
    - rewrite forallb_forall in H5. eapply H5, nth_error_In, Hj.
    - intros y ->. eapply B2, nth_error_In, Hj0.
    - intros l y -> Hy. eapply B3; [eapply nth_error_In, Hj0|exact Hy].
    - intros x Hx. apply Px. cbn. apply in_flat_map. exists (to_field p0). split; [|exact Hx].
      eapply nth_error_In, Hfj.
    - intros k -> ->. pose proof (all_child_required t) as A. unfold child_required in A. rewrite E2 in A.
      apply orb_true_iff in A. destruct A as [A | A]; [apply tmem_in in A; contradiction|].
      rewrite forallb_forall in A. specialize (A _ (nth_error_In _ _ Hj)). cbn in A.
      apply (has_check ps ks _ _ K3) in A. destruct A as [q [R1 R2]].
      destruct (required_some _ _ _ _ R1 R2) as [y Hy]. cbn in A1. subst k. congruence. }
  { rewrite H2, <- K2, map_length. reflexivity. }
  rewrite Q1.
  assert (Hcks : (if terminal t then [] else cks) = cks).
  { destruct (terminal t) eqn:E; [|reflexivity]. rewrite (B4 eq_refl) in E1. injection E1 as <- <-. reflexivity. }
  rewrite Hcks. destruct (construct_rel i n1 t ps qs ks cks r _ B1 Q2 L) as [c ->]. eauto.
Qed.
