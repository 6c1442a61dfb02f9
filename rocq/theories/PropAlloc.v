(** * C41: allocation failures during a parse *)
From Coq Require Import List Bool Arith ZArith Lia String Permutation.
From Verif Require Import AnnotModel OwnModel.
From Verif Require Import Peg QuickModel ErrModel CypherSyntax CypherGrammar CypherMatch
  AstTypes AstModel CypherBuild CypherExec CypherParse PropCypher AllocModel AllocSpec AllocProofs.
Import ListNotations.

Opaque parse_one cfuel.

Lemma start_good : forall sc, good sc (mem0 own0 0) [].
Proof. intros sc. split; [split; [constructor|constructor]|]. split; [intros a []|intros st n []]. Qed.

Lemma start_blank : blank (mem0 own0 0).
Proof. repeat split. Qed.

Lemma release_ok : forall K o, holds o (seg_blocks K) -> (forall s g, In (s, g) K -> o_segs o s = Some g /\ g_refcount g = 1%N) ->
  exists o', release_all (map fst K) o = Some o' /\ nothing_allocated o'.
Proof.
  induction K as [|[s g] K IH]; intros o H HK; cbn [map release_all fst].
  - exists o. split; auto. destruct H as [_ P]. apply Permutation_sym, Permutation_nil in P. exact P.
  - destruct (HK s g (or_introl eq_refl)) as [SG RC].
    assert (L : live o s = true).
    { apply live_in. destruct H as [_ P]. apply (Permutation_in _ (Permutation_sym P)). cbn. apply in_or_app. left. apply seg_self. }
    assert (ND : forall g', In (s, g') K -> False).
    { intros g' I. destruct H as [N P]. assert (N2 := Permutation_NoDup P N). cbn in N2.
      assert (In s (seg_blocks K)) by (apply in_flat_map; exists (s, g'); split; auto; apply seg_self).
      pose proof (seg_self s g) as I2. clear - N2 H I2. induction (seg_frees s g) as [|b B IHB]; [destruct I2|].
      cbn in N2. inversion N2; subst. destruct I2 as [->|I2]; auto. apply H2. apply in_or_app. auto. }
    unfold seg_release, get_seg. rewrite L, SG. cbn [obind]. rewrite RC. change (0 <? 1)%N with true. change (0 <? 1 - 1)%N with false. cbn [negb].
    destruct (free_all_holds (seg_frees s g) o (seg_blocks K) H) as (o1 & E & H1 & S1 & S2). rewrite E. cbn [obind].
    apply IH; auto. intros s' g' I. cbn. unfold AnnotModel.upd. destruct (Nat.eqb_spec s s') as [->|D].
    + destruct (ND _ I).
    + rewrite S1. apply HK. right. exact I.
Qed.

Lemma keep_start : forall keeps, Pkeep keeps 0 (m_own (mem0 own0 0)) [].
Proof. intros keeps. exists []. split; [reflexivity|]. split; [constructor|]. split; [intros s g []|intros s g; discriminate]. Qed.

(** cypher_parse: the result and what it owns, or nothing *)
Lemma all_ok : forall sc cf la fl inp,
  match mparse_all sc cf la fl inp with
  | MResult r m => logged sc m /\ (exists segs last, parse_each cf la (fun _ => 0%Z) fl inp = PRet 0 segs last) /\
      exists o l, res_free r (m_own m) = Some (o, l) /\ nothing_allocated o
  | MNull m => logged sc m /\ failed_allocation sc SOuter m /\ nothing_allocated (m_own m)
  | MAllBad => hit sc
  | MAllAssert | MAllFuel => forall z segs last, parse_each cf la (fun _ => 0%Z) fl inp <> PRet z segs last
  end.
Proof.
  intros sc cf la fl inp. unfold mparse_all.
  pose proof (take_outer sc (mem0 own0 0) [] (start_good sc)) as TK. destruct (take sc SOuter (mem0 own0 0)) as [[r|] m].
  2:{ destruct TK as (OF & _ & (_ & P) & _ & LG). split; auto. split; auto. apply Permutation_sym, Permutation_nil in P. exact P. }
  destruct TK as (G & (K1 & K2 & K3 & K4 & _) & _ & _).
  set (m1 := with_own m _).
  assert (G1 : good sc m1 [r]) by (destruct G as (A & B & C); split; [exact A|split; auto]).
  assert (B1 : blank m1) by (repeat split; auto).
  assert (RF : forall x, res_frees r x <> []) by (intros x; unfold res_frees; rewrite !app_assoc; intros X; apply app_eq_nil in X as [_ X]; discriminate).
  assert (FREE : forall R m, good sc m R -> (exists i, Pres r i (m_own m) R) -> exists o l, res_free r (m_own m) = Some (o, l) /\ nothing_allocated o).
  { intros R m' G' (i & x & RX & _ & PR). unfold res_free, get_res.
    assert (H : holds (m_own m') (res_frees r x ++ [])) by (rewrite app_nil_r; eapply holds_perm; [apply G'|exact PR]).
    assert (L : live (m_own m') r = true).
    { apply live_in. destruct H as [_ P]. apply (Permutation_in _ (Permutation_sym P)). unfold res_frees. rewrite !in_app_iff. cbn. tauto. }
    rewrite L, RX. cbn [obind]. destruct (free_all_holds _ _ _ H) as (o & E & (_ & P) & _). rewrite E. cbn [obind]. eexists _, _. split; [reflexivity|].
    apply Permutation_sym, Permutation_nil in P. exact P. }
  pose proof (mparse_each_ok sc (fun _ => 0%Z) (Pres r) _ (merging_ok sc r) (res_agree r) cf la fl inp [r] m1 B1 G1) as H.
  assert (P0 : Pres r 0 (m_own m1) [r]).
  { eexists. cbn. rewrite upd_same. split; [reflexivity|]. split; auto. }
  specialize (H P0). unfold counting in H.
  destruct (mparse_each sc cf la (merging sc r) fl inp m1) as [z m2| | |].
  - destruct H as (LG & i & R & HP & G2 & H). destruct (FREE R m2 G2 (ex_intro _ i HP)) as (o & l & E & N).
    assert (Z0 : z = 0%Z \/ z = (-1)%Z).
    { destruct H as [(segs & last & X & _)|[-> _]]; auto. left. apply cypher_parse_never_rejects in X. destruct segs; exact X. }
    destruct Z0 as [-> | ->].
    + split; auto. split; [|eauto]. destruct H as [(segs & last & X & _)|[X _]]; [eauto|discriminate].
    + rewrite E. split; auto. split; auto. destruct H as [(segs & last & X & _)|[_ OF]]; auto.
      apply cypher_parse_never_rejects in X. destruct segs; discriminate X.
  - destruct H as [H|H]; auto. destruct (proj1 (cypher_parse_never_rejects cf la (fun _ => 0%Z) fl inp) H).
  - exact H.
  - exact H.
Qed.

(** ** Concrete schedules *)
Definition run_ex (fails : site -> nat -> bool) (keep : bool) : mout :=
  mparse_each (mksched fails (fun _ => true) (fun _ => 1) (fun _ => [MvGrow LBuffer; MvGrow LThunks; MvGrow ELabels]))
    std_config (fun inp _ => List.length inp) (keeping (fun _ => 0%Z) (fun _ => keep)) (mkpf false false)
    (Peg.B "RETURN 1; RETURN 'x'") (mem0 own0 0).

(** ** The claim is false *)

(** C41 asks that a failing allocation makes the parse return an error.  For the
    text [RETURN 1; RETURN 'x'] and each of two single failures (of the array of
    line starts, and of a block while the tree is built) the parse frees a block
    twice or writes through NULL. *)
Definition only (st : site) (n : nat) : site -> nat -> bool := fun st' n' =>
  match st, st' with SVector, SVector | SParse, SParse | SOuter, SOuter => Nat.eqb n n' | _, _ => false end.

Definition attempts (r : mout) : bool :=
  match r with
  | MRet z m => Z.eqb z 0 && existsb (fun p => match p with (SVector, n) => Nat.eqb n 0 | _ => false end) (m_log m)
                && existsb (fun p => match p with (SParse, n) => Nat.eqb n 10 | _ => false end) (m_log m)
  | _ => false
  end.

Lemma attempts_ok : forall r, attempts r = true -> exists m, r = MRet 0 m /\ In (SVector, 0) (m_log m) /\ In (SParse, 10) (m_log m).
Proof.
  intros [z m| | |] H; try discriminate. exists m. cbn in H.
  apply andb_prop in H as [H H2]. apply andb_prop in H as [H H1]. apply Z.eqb_eq in H as ->. split; [reflexivity|].
  apply existsb_exists in H1 as ((st & n) & I1 & Q1). apply existsb_exists in H2 as ((st2 & n2) & I2 & Q2).
  destruct st; try discriminate. destruct st2; try discriminate. apply Nat.eqb_eq in Q1 as ->. apply Nat.eqb_eq in Q2 as ->. auto.
Qed.

Theorem allocation_failure_refuted :
  run_ex (only SVector 0) false = MBad /\ run_ex (only SParse 10) false = MBad /\
  exists m, run_ex (fun _ _ => false) false = MRet 0 m /\ In (SVector, 0) (m_log m) /\ In (SParse, 10) (m_log m).
Proof.
  Transparent parse_one cfuel.
  split; [vm_compute; reflexivity|]. split; [vm_compute; reflexivity|]. apply attempts_ok. vm_compute. reflexivity.
  Opaque parse_one cfuel.
Qed.
Print Assumptions allocation_failure_refuted.

(** It is so for every input and every point of failure inside matching and
    building: where the parse would return, the call with allocations that may
    fail is undefined, or it returns and no allocation inside has failed. *)
Theorem failure_inside_never_returns : forall sc cf la value keeps fl inp z segs last,
  parse_each cf la (fun segs => value (List.length segs - 1)) fl inp = PRet z segs last ->
  mparse_each sc cf la (keeping value keeps) fl inp (mem0 own0 0) = MBad \/
  exists ret m, mparse_each sc cf la (keeping value keeps) fl inp (mem0 own0 0) = MRet ret m /\
    ~ failed_allocation sc SParse m /\ ~ failed_allocation sc SVector m.
Proof.
  intros sc cf la value keeps fl inp z segs last EP.
  pose proof (mparse_each_ok sc value (Pkeep keeps) _ (keeping_ok sc value keeps) (keep_agree keeps) cf la fl inp [] (mem0 own0 0)
    start_blank (start_good sc)) as H.
  assert (P0 : Pkeep keeps 0 (m_own (mem0 own0 0)) []) by apply keep_start.
  specialize (H P0). unfold counting in H. rewrite EP in H.
  destruct (mparse_each sc cf la (keeping value keeps) fl inp (mem0 own0 0)) as [ret m| | |]; auto.
  - right. destruct H as (LG & _). exists ret, m. split; auto.
    split; intros (n & I & F); destruct (LG _ _ I) as [X|X]; congruence.
  - destruct (H _ _ _ eq_refl).
  - destruct (H _ _ _ eq_refl).
Qed.
Print Assumptions failure_inside_never_returns.

Theorem parse_failure_inside_never_returns : forall sc cf la fl inp res last,
  parse_all cf la fl inp = ARes res last ->
  mparse_all sc cf la fl inp = MAllBad \/
  (exists r m, mparse_all sc cf la fl inp = MResult r m /\ ~ failed_allocation sc SParse m /\ ~ failed_allocation sc SVector m) \/
  (exists m, mparse_all sc cf la fl inp = MNull m /\ ~ failed_allocation sc SParse m /\ ~ failed_allocation sc SVector m).
Proof.
  intros sc cf la fl inp res last EP. pose proof (all_ok sc cf la fl inp) as H.
  assert (R : exists z segs last, parse_each cf la (fun _ => 0%Z) fl inp = PRet z segs last).
  { unfold parse_all in EP. destruct (parse_each cf la (fun _ => 0%Z) fl inp); try discriminate. eauto. }
  destruct R as (z & segs & l & R).
  assert (NF : forall m, logged sc m -> ~ failed_allocation sc SParse m /\ ~ failed_allocation sc SVector m).
  { intros m LG. split; intros (n & I & F); destruct (LG _ _ I) as [X|X]; congruence. }
  destruct (mparse_all sc cf la fl inp) as [r m|m| | |]; auto.
  - right. left. exists r, m. split; auto. apply NF. apply H.
  - right. right. exists m. split; auto. apply NF. apply H.
  - destruct (H _ _ _ R).
  - destruct (H _ _ _ R).
Qed.
Print Assumptions parse_failure_inside_never_returns.

(** ** What holds *)
Theorem outer_failure_partial : forall sc cf la value keeps fl inp z segs last,
  only_outer_failures sc ->
  parse_each cf la (fun segs => value (List.length segs - 1)) fl inp = PRet z segs last ->
  exists ret m kept,
    mparse_each sc cf la (keeping value keeps) fl inp (mem0 own0 0) = MRet ret m /\
    (ret = z /\ List.length kept = kept_of keeps (List.length segs) \/ ret = (-1)%Z /\ failed_allocation sc SOuter m) /\
    (forall s, In s kept -> exists g, get_seg (m_own m) s = Some g /\ g_refcount g = 1%N) /\
    exists o, release_all kept (m_own m) = Some o /\ nothing_allocated o.
Proof.
  intros sc cf la value keeps fl inp z segs last NO E.
  pose proof (mparse_each_ok sc value (Pkeep keeps) _ (keeping_ok sc value keeps) (keep_agree keeps) cf la fl inp [] (mem0 own0 0)
    start_blank (start_good sc)) as H.
  assert (P0 : Pkeep keeps 0 (m_own (mem0 own0 0)) []) by apply keep_start.
  specialize (H P0). unfold counting in H. rewrite E in H.
  assert (NH : ~ hit sc) by (intros (st & n & A & B); rewrite NO in B; [discriminate|auto]).
  destruct (mparse_each sc cf la (keeping value keeps) fl inp (mem0 own0 0)) as [ret m| | |].
  - destruct H as (LG & i & R & (K & LK & PK & HK & _) & G & H). exists ret, m, (map fst K). split; auto.
    assert (HH : holds (m_own m) (seg_blocks K)) by (eapply holds_perm; [apply G|exact PK]).
    split; [|split].
    + destruct H as [(sg & l & X & EI)|(X & OF)]; [left|right; split; auto].
      injection X as -> -> ->. split; auto. rewrite map_length, LK, EI. reflexivity.
    + intros s I. apply in_map_iff in I as ((s' & g) & <- & I). exists g. cbn [fst].
      destruct (HK _ _ I) as [A B]. split; auto. unfold get_seg. rewrite A.
      assert (L : live (m_own m) s' = true).
      { apply live_in. destruct HH as [_ P]. apply (Permutation_in _ (Permutation_sym P)). apply in_flat_map. exists (s', g). split; auto. apply seg_self. }
      rewrite L. reflexivity.
    + apply release_ok; auto.
  - destruct H as [H|H]; [destruct (NH H)|discriminate].
  - destruct (H _ _ _ eq_refl).
  - destruct (H _ _ _ eq_refl).
Qed.
Print Assumptions outer_failure_partial.

Theorem parse_outer_failure_partial : forall sc cf la fl inp res last,
  only_outer_failures sc -> parse_all cf la fl inp = ARes res last ->
  (exists r m, mparse_all sc cf la fl inp = MResult r m /\ exists o l, res_free r (m_own m) = Some (o, l) /\ nothing_allocated o) \/
  (exists m, mparse_all sc cf la fl inp = MNull m /\ failed_allocation sc SOuter m /\ nothing_allocated (m_own m)).
Proof.
  intros sc cf la fl inp res last NO EP. pose proof (all_ok sc cf la fl inp) as H.
  assert (R : exists z segs last, parse_each cf la (fun _ => 0%Z) fl inp = PRet z segs last).
  { unfold parse_all in EP. destruct (parse_each cf la (fun _ => 0%Z) fl inp); try discriminate. eauto. }
  destruct R as (z & segs & l & R).
  destruct (mparse_all sc cf la fl inp) as [r m|m| | |].
  - left. exists r, m. split; auto. apply H.
  - right. exists m. split; auto. apply H.
  - destruct H as (st & n & A & B). rewrite NO in B; [discriminate|auto].
  - destruct (H _ _ _ R).
  - destruct (H _ _ _ R).
Qed.
Print Assumptions parse_outer_failure_partial.

(** Without failures nothing is freed twice, nothing is used after it is freed,
    and when the caller has released what it kept nothing is left *)
Theorem no_failure_no_leak : forall sc cf la value keeps fl inp z segs last,
  no_failures sc ->
  parse_each cf la (fun segs => value (List.length segs - 1)) fl inp = PRet z segs last ->
  exists m kept,
    mparse_each sc cf la (keeping value keeps) fl inp (mem0 own0 0) = MRet z m /\
    List.length kept = kept_of keeps (List.length segs) /\
    exists o, release_all kept (m_own m) = Some o /\ nothing_allocated o.
Proof.
  intros sc cf la value keeps fl inp z segs last NF EP.
  destruct (outer_failure_partial sc cf la value keeps fl inp z segs last) as (ret & m & kept & E & H & _ & O); auto.
  { intros st n _. apply NF. }
  destruct H as [[-> L]|[_ (n & _ & F)]]; [|rewrite NF in F; discriminate]. exists m, kept. auto.
Qed.
Print Assumptions no_failure_no_leak.

(** ** C20: the segment during its callback *)

(** Whenever the callback is called, the segment passed is alive and has exactly
    one reference, and of the segments passed before exactly those that the
    callback has kept are still alive; so each other one was freed when its
    callback had returned.  After the call the segments kept have one reference
    each, and once they are released nothing is allocated. *)
Theorem segment_during_callback : forall sc cf la value keeps fl inp z segs last,
  no_failures sc ->
  parse_each cf la (fun segs => value (List.length segs - 1)) fl inp = PRet z segs last ->
  exists m kept,
    mparse_each sc cf la (watching value keeps) fl inp (mem0 own0 0) = MRet z m /\
    List.length kept = kept_of keeps (List.length segs) /\ segments_alive (m_own m) = List.length kept /\
    (forall s, In s kept -> exists g, get_seg (m_own m) s = Some g /\ g_refcount g = 1%N) /\
    exists o, release_all kept (m_own m) = Some o /\ nothing_allocated o.
Proof.
  intros sc cf la value keeps fl inp z segs last NF E.
  pose proof (mparse_each_ok sc value (Pkeep keeps) _ (watching_ok sc value keeps) (keep_agree keeps) cf la fl inp [] (mem0 own0 0)
    start_blank (start_good sc) (keep_start keeps)) as H.
  unfold counting in H. rewrite E in H.
  assert (NH : ~ hit sc) by (intros (st & n & A & B); rewrite NF in B; discriminate).
  destruct (mparse_each sc cf la (watching value keeps) fl inp (mem0 own0 0)) as [ret m| | |].
  - destruct H as (LG & i & R & (K & LK & PK & HK & KH) & G & H).
    assert (HH : holds (m_own m) (seg_blocks K)) by (eapply holds_perm; [apply G|exact PK]).
    destruct H as [(sg & l & X & EI)|(_ & (n & _ & F))]; [|rewrite NF in F; discriminate]. injection X as <- <- <-.
    assert (LV : forall s g, In (s, g) K -> live (m_own m) s = true).
    { intros s g I. apply live_in. destruct HH as [_ P]. apply (Permutation_in _ (Permutation_sym P)). apply in_flat_map. exists (s, g). split; auto. apply seg_self. }
    exists m, (map fst K). split; [reflexivity|]. split; [rewrite map_length, LK, EI; reflexivity|]. split; [|split].
    + unfold segments_alive. apply Permutation_length. apply NoDup_Permutation.
      * apply NoDup_filter. apply HH.
      * apply flat_nodup. destruct HH as [N P]. eapply Permutation_NoDup; eauto.
      * intros a. rewrite filter_In, in_map_iff. split.
        -- intros [_ Q]. destruct (o_segs (m_own m) a) as [g|] eqn:Q2; [|discriminate]. exists (a, g). auto.
        -- intros ((s & g) & Q & I). cbn in Q. subst s. destruct (HK _ _ I) as [Q _]. rewrite Q. split; auto. apply live_in. eauto.
    + intros s I. apply in_map_iff in I as ((s' & g) & <- & I). exists g. cbn [fst].
      destruct (HK _ _ I) as [A B]. split; auto. unfold get_seg. rewrite A, (LV _ _ I). reflexivity.
    + apply release_ok; auto.
  - destruct H as [H|H]; [destruct (NH H)|discriminate].
  - destruct (H _ _ _ eq_refl).
  - destruct (H _ _ _ eq_refl).
Qed.
Print Assumptions segment_during_callback.

(** The text of [run_ex]: without failures; the top block, the first segment, the
    array of roots of the second segment cannot be allocated *)
Example alloc_examples :
  (exists m, run_ex (fun _ _ => false) false = MRet 0 m /\ nothing_allocated (m_own m)) /\
  (exists m, run_ex (fun _ _ => false) true = MRet 0 m /\ List.length (o_live (m_own m)) = 36) /\
  (exists m, run_ex (only SOuter 1) true = MRet (-1) m /\ nothing_allocated (m_own m)) /\
  (exists m, run_ex (only SOuter 46) true = MRet (-1) m /\ nothing_allocated (m_own m)) /\
  (exists m, run_ex (only SOuter 94) true = MRet (-1) m /\ List.length (o_live (m_own m)) = 18).
Proof.
  Transparent parse_one cfuel.
  assert (CHK : forall r z n, match r with MRet z' m => Z.eqb z' z && Nat.eqb (List.length (o_live (m_own m))) n | _ => false end = true ->
    exists m, r = MRet z m /\ List.length (o_live (m_own m)) = n).
  { intros r z n H. destruct r as [z' m| | |]; try discriminate. exists m. apply andb_prop in H as [A B].
    apply Z.eqb_eq in A as ->. apply Nat.eqb_eq in B. auto. }
  assert (NIL : forall r z, match r with MRet z' m => Z.eqb z' z && Nat.eqb (List.length (o_live (m_own m))) 0 | _ => false end = true ->
    exists m, r = MRet z m /\ nothing_allocated (m_own m)).
  { intros r z H. apply CHK in H as (m & E & L). exists m. split; auto. unfold nothing_allocated. destruct (o_live (m_own m)); [reflexivity|discriminate]. }
  split; [apply NIL; vm_compute; reflexivity|]. split; [apply CHK; vm_compute; reflexivity|].
  split; [apply NIL; vm_compute; reflexivity|]. split; [apply NIL; vm_compute; reflexivity|]. apply CHK; vm_compute; reflexivity.
Qed.

(** Two segments, of which the second is kept *)
Example watched_example :
  exists m, mparse_each (mksched (fun _ _ => false) (fun _ => true) (fun _ => 1) (fun _ => []))
    std_config (fun inp _ => List.length inp) (watching (fun _ => 0%Z) (fun i => Nat.eqb i 1)) (mkpf false false)
    (Peg.B "RETURN 1; RETURN 'x'") (mem0 own0 0) = MRet 0 m /\ segments_alive (m_own m) = 1.
Proof.
  Transparent parse_one cfuel.
  assert (CHK : forall r z n, match r with MRet z' m => Z.eqb z' z && Nat.eqb (segments_alive (m_own m)) n | _ => false end = true ->
    exists m, r = MRet z m /\ segments_alive (m_own m) = n).
  { intros r z n H. destruct r as [z' m| | |]; try discriminate. exists m. apply andb_prop in H as [A B].
    apply Z.eqb_eq in A as ->. apply Nat.eqb_eq in B. auto. }
  apply CHK; vm_compute; reflexivity.
Qed.
