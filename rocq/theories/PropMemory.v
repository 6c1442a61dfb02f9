(** * Annotations and reference counting: the theorems *)
From Coq Require Import List Bool Arith NArith Lia Permutation.
From Verif Require Import AnnotModel AnnotSpec AnnotProofs OwnModel OwnSpec OwnProofs.
Import ListNotations.

(** ** C30: annotations behave as a map *)

(** Any history of correct uses runs without undefined behaviour.  After it,
    getting, removing and attaching report exactly the data most recently
    attached to that node in that context and not removed or freed since. *)
Theorem annotations_are_a_map : forall l, well_used l -> fresh_run heap0 l ->
  (exists h rs, arun heap0 l = Some (h, rs)) /\
  (forall l1 o l2, l = l1 ++ o :: l2 ->
     exists h rs h' r calls, arun heap0 l1 = Some (h, rs) /\ astep h o = Some (h', r, calls) /\
       match o with
       | AGet c n | ARemove c n => r = AData (current l1 c n)
       | AAttach c n d mem =>
           match current l1 c n, mem with
           | Some old, _ => r = AStatus true (Some old)
           | None, Some _ => r = AStatus true None
           | None, None => r = AStatus false None
           end
       | _ => r = ADone
       end).
Proof.
  intros l H F. split.
  - destruct (history_ok l H F) as (h & w & rs & E & _ & Er & _). eauto.
  - intros l1 o l2 E. assert (E' : l = (l1 ++ [o]) ++ l2) by now rewrite <- app_assoc.
    rewrite E' in H, F. destruct (last_step l1 o (well_used_prefix _ _ H) (fresh_prefix _ _ _ F)) as (h & w & rs & h' & Hr & Er & S).
    exists h, rs, h', (snd (fst (world_step false w o))), (snd (world_step false w o)). split; [exact Er|]. split; [exact S|].
    destruct o; try reflexivity; cbn [world_step]; rewrite (current_ok false l1 w rs _ _ Hr); try reflexivity.
    destruct (current l1 ctx node), mem; reflexivity.
Qed.
Print Assumptions annotations_are_a_map.

(** Each annotation uses one block of memory, and no block is left when all
    nodes or all contexts have been freed. *)
Theorem annotations_no_leak : forall l h rs, well_used l -> fresh_run heap0 l -> arun heap0 l = Some (h, rs) ->
  ((forall c, live_ctx l c = false) \/ (forall n, live_node l n = false)) -> forall a, h_cells h a = None.
Proof.
  intros l h rs H F Er Hall a. destruct (history_ok l H F) as (h1 & w & rs1 & E & Hr & Er1 & R & Hc & Hn).
  rewrite Er in Er1. injection Er1 as <- <-. apply (rp_free _ _ _ R). intros Hi. apply in_map_iff in Hi. destruct Hi as ([b e] & _ & Hi).
  destruct (rp_used _ _ _ R b e Hi) as [U1 U2]. destruct Hall as [Ha|Ha].
  - specialize (Ha (en_ctx e)). rewrite Hc in Ha. destruct (w_ctxs w (en_ctx e)); congruence.
  - specialize (Ha (en_node e)). rewrite Hn in Ha. congruence.
Qed.
Print Assumptions annotations_no_leak.

(** two contexts, two nodes; the first context is freed, then the first node *)
Definition history1 : list aop :=
  [ANewContext 100; ANewContext 101; ANewNode 200; ANewNode 201;
   ASetHandler 100 (Some 7) (Some 8); ASetHandler 101 (Some 9) None;
   AAttach 100 200 1 (Some 300); AAttach 101 200 2 (Some 301); AAttach 100 201 3 (Some 302); AAttach 101 201 4 (Some 303);
   AAttach 100 200 5 None; AGet 100 200; ARemove 101 201; AGet 101 201;
   AFreeContext 100; AGet 101 200; AFreeNode 200; AFreeNode 201; AFreeContext 101].

Lemma well_used_dec : forall l, 
  (forall i, i < length l -> 
    match nth i l (AFreeNode 0) with
    | ANewContext c => live_ctx (firstn i l) c = false
    | ANewNode n => live_node (firstn i l) n = false
    | ASetHandler c _ _ | AFreeContext c => live_ctx (firstn i l) c = true
    | AAttach c n _ _ | AGet c n | ARemove c n => live_ctx (firstn i l) c = true /\ live_node (firstn i l) n = true
    | AFreeNode n => live_node (firstn i l) n = true
    end) -> well_used l.
Proof.
  intros l H l1 o l2 ->. specialize (H (length l1)). rewrite app_nth2, Nat.sub_diag, firstn_app, Nat.sub_diag, firstn_all in H by lia.
  cbn [nth firstn] in H. rewrite app_nil_r in H. apply H. rewrite app_length. cbn. lia.
Qed.

Example history1_used : well_used history1 /\ fresh_run heap0 history1.
Proof.
  split; [|vm_compute; tauto]. apply well_used_dec. intros i Hi. cbn in Hi.
  do 19 (destruct i as [|i]; [cbn; auto|]). lia.
Qed.
Example history1_results : option_map snd (arun heap0 history1) = Some
  [(ADone, []); (ADone, []); (ADone, []); (ADone, []); (ADone, []); (ADone, []);
   (AStatus true None, []); (AStatus true None, []); (AStatus true None, []); (AStatus true None, []);
   (AStatus true (Some 1), []); (AData (Some 5), []); (AData (Some 4), []); (AData None, []);
   (ADone, [(7, Some 8, None, 3); (7, Some 8, None, 5)]); (AData (Some 2), []); (ADone, [(9, None, None, 2)]); (ADone, []); (ADone, [])].
Proof. reflexivity. Qed.

(** ** C31: the release handler *)

(** Missing for the full claim: the handler is not told the node (refuted
    below).  When a node is freed, for each context in which it is annotated,
    and when a context is freed, for each node annotated in it, the handler set
    for the context is called exactly once, with its userdata and the data; no
    other operation calls a handler. *)
Theorem release_handler_partial : forall l o h rs, well_used (l ++ [o]) -> fresh_run heap0 (l ++ [o]) ->
  arun heap0 l = Some (h, rs) ->
  exists h' r calls, astep h o = Some (h', r, calls) /\
    match o with
    | AFreeNode n =>
        exists cs, NoDup (map fst cs) /\ (forall c d, In (c, d) cs <-> current l c n = Some d) /\
          calls = flat_map (fun p => one_call l None (fst p) (snd p)) cs
    | AFreeContext c =>
        exists ns, NoDup (map fst ns) /\ (forall n d, In (n, d) ns <-> current l c n = Some d) /\
          calls = flat_map (fun p => one_call l None c (snd p)) ns
    | _ => calls = []
    end.
Proof.
  intros l o h rs H F Er. destruct (last_step l o H F) as (h1 & w & rs1 & h' & Hr & Er1 & S).
  rewrite Er in Er1. injection Er1 as <- <-. eexists _, _, _. split; [exact S|].
  destruct o; try reflexivity.
  - cbn [world_step]. destruct (attached w ctx node), mem; reflexivity.
  - exact (free_ctx_calls l w rs ctx Hr).
  - exact (free_node_calls l w rs node Hr).
Qed.
Print Assumptions release_handler_partial.

(** the first 14 operations of [history1], then freeing context 100: two calls *)
Example release_handler_case : let l := firstn 14 history1 in
  well_used (l ++ [AFreeContext 100]) /\ fresh_run heap0 (l ++ [AFreeContext 100]) /\
  current l 100 200 = Some 5 /\ current l 100 201 = Some 3 /\ handler l 100 = Some (7, Some 8).
Proof.
  destruct history1_used as [H F]. split; [|split; [|cbn; auto]].
  - apply (well_used_prefix _ (skipn 15 history1)). exact H.
  - apply (fresh_prefix _ (skipn 15 history1)). exact F.
Qed.

(** The handler should be passed the node, but it is passed NULL: the
    annotation is detached before the call (annotation.c:257-266). *)
Theorem release_handler_node_refuted : ~ forall l n h h' rs r calls, well_used (l ++ [AFreeNode n]) -> fresh_run heap0 (l ++ [AFreeNode n]) ->
  arun heap0 l = Some (h, rs) -> astep h (AFreeNode n) = Some (h', r, calls) ->
  forall f u m d, In (f, u, m, d) calls -> m = Some n.
Proof.
  intros H.
  set (l := [ANewContext 100; ANewNode 200; ASetHandler 100 (Some 7) (Some 8); AAttach 100 200 1 (Some 300)]).
  destruct (arun heap0 l) as [[h rs]|] eqn:E; [|discriminate].
  destruct (astep h (AFreeNode 200)) as [[[h' r] calls]|] eqn:S.
  2:{ vm_compute in E. injection E as <- <-. vm_compute in S. discriminate. }
  assert (Hc : calls = [(7, Some 8, None, 1)]).
  { vm_compute in E. injection E as <- <-. vm_compute in S. injection S as <- <- <-. reflexivity. }
  specialize (H l 200 h h' rs r calls).
  assert (None = Some 200); [|discriminate]. apply (H) with (f := 7) (u := Some 8) (d := 1); auto.
  - apply well_used_dec. intros i Hi. cbn in Hi. do 5 (destruct i as [|i]; [cbn; auto|]). lia.
  - vm_compute. tauto.
  - rewrite Hc. now left.
Qed.
Print Assumptions release_handler_node_refuted.

(** ** C21: segments are reference counted *)

(** Every history in which the caller holds a reference to what it uses runs
    without a double free and without a use of freed memory, and when all
    references, results and loose blocks are given back, no memory is left.
    Allocations may fail at any point. *)
Theorem segment_memory_safe : forall l, good_run own0 ledger0 l ->
  exists o rs, orun own0 l = Some (o, rs) /\
    ((forall s, refs (ledger_run ledger0 l rs) s = 0%N) -> (forall r, results (ledger_run ledger0 l rs) r = false) ->
     (forall a, loose (ledger_run ledger0 l rs) a = false) -> o_live o = []).
Proof.
  intros l G. destruct (orun_ok l own0 ledger0 [] [] orep0 G) as (o & rs & S & X & E & R). exists o, rs. split; [exact E|].
  intros H1 H2 H3.
  assert (S = []) as ->.
  { destruct S as [|[s g] S]; [reflexivity|]. specialize (H1 s). rewrite (or_refs _ _ _ _ R) in H1. cbn [lookup] in H1. rewrite Nat.eqb_refl in H1.
    pose proof (or_small _ _ _ _ R s g (or_introl eq_refl)). lia. }
  assert (X = []) as ->.
  { destruct X as [|[s g] X]; [reflexivity|]. specialize (H2 s). rewrite (or_results _ _ _ _ R) in H2. cbn [lookup] in H2. rewrite Nat.eqb_refl in H2. discriminate. }
  destruct (o_live o) as [|a m] eqn:Ea; [reflexivity|]. pose proof (or_live _ _ _ _ R a) as L. rewrite H3, Ea, cnt_cons, Nat.eqb_refl in L. cbn in L. lia.
Qed.
Print Assumptions segment_memory_safe.

(** A release frees nothing unless it gives back the last reference.  Then it
    frees, each exactly once, the segment, the strings of its errors, its trees
    and its (at most two) arrays, and nothing else. *)
Theorem segment_release : forall l s, good_run own0 ledger0 (l ++ [ORelease s]) ->
  exists o rs errs trees nn d e o' freed,
    orun own0 l = Some (o, rs) /\ ostep o (ORead s) = Some (o, OSeg errs trees nn d e) /\
    ostep o (ORelease s) = Some (o', OFreed freed) /\
    let n := refs (ledger_run ledger0 l rs) s in
    ((1 < n)%N -> freed = []) /\
    (n = 1%N -> NoDup freed /\ exists arrays, length arrays <= 2 /\ Permutation freed (s :: arrays ++ given errs trees)) /\
    (forall a, live o' a = live o a && negb (inside freed a)) /\ (forall a, In a freed -> live o a = true).
Proof.
  intros l s G. pose proof (good_prefix _ _ _ _ G) as G0.
  destruct (orun_ok l own0 ledger0 [] [] orep0 G0) as (o & rs & S & X & E & R).
  destruct (good_app _ _ _ _ _ _ G E) as [_ (A & _ & _)]. cbn [oallowed] in A.
  destruct (release_ok o _ S X s R A) as (o' & g & S' & Hg & Er & C & N & _).
  exists o, rs, (g_errs g), (g_trees g), (g_nnodes g), (g_directive g), (g_eof g), o'. eexists.
  split; [exact E|]. split. { cbn [ostep]. now rewrite Hg. } split; [exact Er|]. cbn zeta.
  assert (Hle : forall a, cnt (seg_frees s g) a <= cnt (o_live o) a).
  { intros a. destruct (get_seg_ok o _ S X s R A) as (g' & Hl & Hg' & _). rewrite Hg in Hg'. injection Hg' as <-.
    rewrite (or_live _ _ _ _ R), (held_unlink _ seg_frees s g S a Hl). lia. }
  destruct (1 <? refs (ledger_run ledger0 l rs) s)%N eqn:E1.
  - apply N.ltb_lt in E1. split; [reflexivity|]. split; [lia|]. split.
    + intros a. rewrite !live_cnt, C. cbn. now rewrite Nat.sub_0_r, andb_true_r.
    + intros a [].
  - apply N.ltb_ge in E1. split; [lia|]. split; [|split].
    + intros _. split; [exact N|]. exists (blk (g_errors g) ++ blk (g_roots g)). split.
      { rewrite app_length. destruct (g_errors g), (g_roots g); cbn; lia. }
      apply (Permutation_count_occ Nat.eq_dec). intros a. change (count_occ Nat.eq_dec) with cnt.
      rewrite seg_cnt, cnt_cons, !cnt_app, given_cnt. unfold bit. lia.
    + intros a. rewrite !live_cnt, C, inside_cnt. specialize (Hle a). pose proof (or_once _ _ _ _ R a).
      destruct (0 <? cnt (seg_frees s g) a) eqn:Ez; [apply Nat.ltb_lt in Ez|apply Nat.ltb_ge in Ez]; cbn [negb].
      * rewrite andb_false_r. apply Nat.ltb_ge. lia.
      * rewrite andb_true_r. f_equal. lia.
    + intros a Ha. rewrite live_cnt. apply Nat.ltb_lt. apply cnt_in in Ha. specialize (Hle a). lia.
Qed.
Print Assumptions segment_release.

(** Until then it can be used: a segment that is not merged into a result
    reads back as it was made, whatever else happens. *)
Theorem segment_usable : forall l1 l2 errs trees nn d e s m2 m3 o1 o2 o3 rs1 rs2,
  let p := OSegment errs trees nn d e (Some s) m2 m3 in
  good_run own0 ledger0 (l1 ++ p :: l2) ->
  orun own0 l1 = Some (o1, rs1) -> ostep o1 p = Some (o2, OStatus true) -> orun o2 l2 = Some (o3, rs2) ->
  Forall (leaves s) l2 -> (0 < refs (ledger_run ledger0 (l1 ++ p :: l2) (rs1 ++ OStatus true :: rs2)) s)%N ->
  ostep o3 (ORead s) = Some (o3, OSeg errs trees nn d e).
Proof.
  intros l1 l2 errs trees nn d e s m2 m3 o1 o2 o3 rs1 rs2 p G E1 E2 E3 L H.
  destruct (good_app l1 (p :: l2) _ _ _ _ G E1) as [G1 G2].
  destruct (orun_ok l1 own0 ledger0 [] [] orep0 G1) as (o & rs & S & X & E & R). rewrite E1 in E. injection E as <- <-.
  destruct G2 as (A & F & G2). rewrite E2 in G2.
  destruct (segment_ok o1 _ S X errs trees nn d e (Some s) m2 m3 R A F) as (o' & ok & S' & Es & R' & K & _).
  fold p in Es. rewrite E2 in Es. injection Es as <- <-. destruct (K eq_refl) as (s' & ea & b & Eq & ->). injection Eq as <-.
  assert (Hg : o_segs o2 s = Some (mksegm 1 ea errs b trees nn d e)).
  { rewrite (or_segs _ _ _ _ R'). cbn [lookup]. now rewrite Nat.eqb_refl. }
  assert (Hlen : length l1 = length rs1).
  { clear -E1. revert E1. generalize own0 as o. revert rs1. induction l1 as [|q l IH]; intros rs1 o H.
    - cbn in H. injection H as <- <-. reflexivity.
    - cbn [orun] in H. destruct (ostep o q) as [[oa ra]|]; [|discriminate]. cbn [obind] in H.
      destruct (orun oa l) as [[ob rb]|] eqn:Eb; [|discriminate]. cbn [obind] in H. injection H as <- <-. cbn. f_equal. eauto. }
  assert (Hr : ledger_run ledger0 (l1 ++ p :: l2) (rs1 ++ OStatus true :: rs2) =
               ledger_run (ledger_step (ledger_run ledger0 l1 rs1) p (OStatus true)) l2 rs2).
  { clear -Hlen. revert rs1 Hlen. generalize ledger0 as w. induction l1 as [|q l IH]; intros w [|r rs1] Hl; try discriminate; [reflexivity|].
    cbn [app ledger_run]. apply IH. cbn in Hl. congruence. }
  rewrite Hr in H. destruct (keep_run l2 o2 _ _ _ o3 rs2 s _ R' G2 E3 L Hg H) as (g' & Hg' & Hv).
  cbn [ostep]. rewrite Hg'. cbn [obind]. unfold view in Hv. cbn in Hv. injection Hv as -> -> -> -> ->. reflexivity.
Qed.
Print Assumptions segment_usable.

(** a parse of two segments into a result, with the second one retained by the
    callback for later *)
Definition history2 : list oop :=
  [OResult 1; OAlloc [10; 11; 12; 13]; 
   OSegment [mkserr (Some 10) (Some 11)] [Tree [12] None []; Tree [13] None []] 2 (Some 5) false (Some 20) (Some 21) (Some 22);
   ORetain 20; OMerge 1 20 (Some 30) (Some 31) (Some 32); ORelease 20; ORelease 20;
   OAlloc [14; 15; 16; 17];
   OSegment [mkserr (Some 14) (Some 15)] [Tree [16] (Some 17) []] 1 None true (Some 23) (Some 24) (Some 25);
   ORetain 23; ORelease 23; ORead 23; OResultRead 1; OResultFree 1; ORelease 23].

Example history2_good : good_run own0 ledger0 history2.
Proof.
  vm_compute. repeat match goal with
              | |- _ /\ _ => split
              | |- NoDup _ => repeat (constructor; cbn; [intuition discriminate|]); constructor
              | |- forall x a, Some _ = Some x -> Some _ = Some a -> _ => intros x a Ex Ea; injection Ex as <-; injection Ea as <-; auto
              | |- forall a, _ => intros a Ha; intuition (subst; reflexivity)
              | _ => first [exact I | reflexivity | constructor]
              end.
Qed.
Example history2_results : option_map (fun r => (o_live (fst r), skipn 9 (snd r))) (orun own0 history2) = Some
  ([], [ODone; OFreed []; OSeg [mkserr (Some 14) (Some 15)] [Tree [16] (Some 17) []] 1 None true;
        ORes [mkserr (Some 10) (Some 11)] [Tree [12] None []; Tree [13] None []] 2 [5] false;
        OFreed [10; 11; 30; 12; 13; 31; 32; 1]; OFreed [14; 15; 24; 16; 17; 25; 23]]).
Proof. reflexivity. Qed.

(** The bound on the number of references is needed: the count is a 32-bit
    unsigned int, and after 2^32 references it is zero again.  A further
    release then fails an assertion. *)
Lemma retains : forall n k o, live o 1 = true -> (0 < k)%N -> (k + N.of_nat n <= UINT)%N ->
  o_segs o 1 = Some (mksegm (k mod UINT) None [] None [] 0 None false) ->
  exists o' rs, orun o (repeat (ORetain 1) n) = Some (o', rs) /\ live o' 1 = true /\
    o_segs o' 1 = Some (mksegm ((k + N.of_nat n) mod UINT) None [] None [] 0 None false).
Proof.
  induction n as [|n IH]; intros k o Hl Hk Hb Hs.
  - exists o, []. split; [reflexivity|]. split; [exact Hl|]. now rewrite Hs, N.add_0_r.
  - assert (Hu : (UINT <> 0)%N) by discriminate.
    assert (Hm : (k mod UINT)%N = k) by (apply N.mod_small; lia).
    cbn [repeat orun ostep]. unfold seg_retain, get_seg. rewrite Hl, Hs, Hm. cbn [obind g_refcount].
    rewrite (proj2 (N.ltb_lt 0 k) Hk). cbn [obind].
    match goal with |- context [orun ?q _] => destruct (IH (k + 1)%N q) as (o' & rs & E & L & S) end.
    + exact Hl.
    + lia.
    + lia.
    + cbn [set_seg o_segs]. rewrite upd_eq. reflexivity.
    + rewrite E. cbn [obind]. eexists _, _. split; [reflexivity|]. split; [exact L|]. rewrite S. do 3 f_equal. lia.
Qed.

Lemma overflow : forall n, N.of_nat n = (UINT - 1)%N ->
  (exists o rs, orun own0 (OSegment [] [] 0 None false (Some 1) None None :: repeat (ORetain 1) n) = Some (o, rs)) /\
  orun own0 (OSegment [] [] 0 None false (Some 1) None None :: repeat (ORetain 1) n ++ [ORelease 1]) = None.
Proof.
  intros n Hn.
  set (o1 := mkown [1] (upd (fun _ => None) 1 (Some (mksegm 1 None [] None [] 0 None false))) (fun _ => None)).
  assert (E1 : ostep own0 (OSegment [] [] 0 None false (Some 1) None None) = Some (o1, OStatus true)) by reflexivity.
  destruct (retains n 1%N o1) as (o' & rs & E & L & S).
  - reflexivity.
  - reflexivity.
  - rewrite Hn. discriminate.
  - reflexivity.
  - assert (Hz : ((1 + N.of_nat n) mod UINT)%N = 0%N) by (rewrite Hn; reflexivity). rewrite Hz in S.
    assert (App : forall l o o' rs, orun o l = Some (o', rs) -> ostep o' (ORelease 1) = None -> orun o (l ++ [ORelease 1]) = None).
    { induction l as [|q l IH]; intros o oe re H Hn0.
      - cbn in H. injection H as <- <-. cbn [app orun]. now rewrite Hn0.
      - cbn [app orun] in *. destruct (ostep o q) as [[oa ra]|]; [|reflexivity]. cbn [obind] in *.
        destruct (orun oa l) as [[ob rb]|] eqn:Eb; [|discriminate]. cbn [obind] in H. injection H as <- <-. now rewrite (IH oa ob rb Eb Hn0). }
    split.
    + cbn [orun]. rewrite E1. cbn [obind]. rewrite E. cbn [obind]. eauto.
    + cbn [orun]. rewrite E1. cbn [obind]. rewrite (App _ _ _ _ E); [reflexivity|].
      cbn [ostep]. unfold seg_release, get_seg. rewrite L, S. reflexivity.
Qed.

Theorem segment_refcount_overflow_refuted : exists n,
  N.of_nat n = (UINT - 1)%N /\
  (exists o rs, orun own0 (OSegment [] [] 0 None false (Some 1) None None :: repeat (ORetain 1) n) = Some (o, rs)) /\
  orun own0 (OSegment [] [] 0 None false (Some 1) None None :: repeat (ORetain 1) n ++ [ORelease 1]) = None.
Proof. exists (N.to_nat (UINT - 1)). split; [apply N2Nat.id|]. apply overflow. apply N2Nat.id. Qed.
Print Assumptions segment_refcount_overflow_refuted.
