(** * From predictions to what an expression takes

    [node_take], [fold_take] and [chain_take] turn a computed prediction (Forward.v,
    ForwardExec.v) into a statement about all states ([takes], ForwardLex.v). *)
From Coq Require Import List Bool Arith Ascii String ZArith Lia Permutation.
From Verif Require Import Peg PegProofs PegThunks QuickModel QuickSpec QuickProofs CypherSyntax CypherGrammar OperModel ErrModel
  CypherMatch AstTypes AstModel CypherBuild CypherExec CypherParse CypherRun CypherRound CypherSpec
  NodeFacts NodeHeld FlowSound FlowRun SafeProofs TraceSpec TraceProofs LexSpec LexProofs TermSpec Forward ForwardExec ForwardLex.
Import ListNotations.
Open Scope peg_scope.
Opaque parse_one cfuel.
Strategy expand [crun].

(** ** Nodes that stand for all that existed before *)
Definition ghost (i : nat) : node := Node i T_ERROR (mkrange (mkpos 0 0 0) (mkpos 0 0 0)) [] [] 0.
Definition ghosts (n : nat) : list node := map ghost (seq 0 n).
Lemma ghosts_ids : forall n, map nid (ghosts n) = seq 0 n.
Proof. intros n. unfold ghosts. rewrite map_map. rewrite <- map_id. apply map_ext. reflexivity. Qed.

Lemma grow_nil : forall b, grow b [] [] = b.
Proof. intros [t bs be rs re sq ks]. unfold grow. cbn. rewrite !app_nil_r. reflexivity. Qed.

Section Step.
Variables (col : coloring) (off : position) (inp : bytes).
Notation runc := (run CG (get_of inp) (cprun col off)).
Notation vis := (visits col off inp).
Notation cst := (pst action cuser).
Notation performs := (performs inp).
Notation takes := (takes col off inp).
Notation refuses := (refuses col off inp).

Section Holes.
Variables (rest_of : nat -> bytes) (eff : nat -> heff).
Notation text := (text rest_of).
Notation ob := (ob col off inp rest_of (fun i => performs (eff i))).
Notation rel := (rel inp rest_of).

Lemma ob_take : forall x w t i w' u, takes t x u (text w') (eff i) -> text w = u ++ text w' -> ob (mko x w t (FTake i w')).
Proof.
  intros x w t i w' u H E m s HA HS. cbn [o_verdict o_exp o_st o_at] in *. unfold at_toks in HA. rewrite E in HA.
  exact (H m s HA HS).
Qed.
Lemma ob_refuse : forall x w t, refuses t x (text w) -> ob (mko x w t FFail).
Proof. intros x w t H m s HA HS. exact (H m s HA HS). Qed.

Lemma take_of : forall fact n x w t w' t' tr obs h, trun fact n x w t = TOk w' t' tr true obs -> t_prs t' = t_prs t ->
  Forall ob obs -> (forall l, traced inp rest_of (fun i => performs (eff i)) tr l -> performs h l) ->
  forall u R, text w = u ++ R -> text w' = R -> takes t x u R h.
Proof.
  intros fact n x w t w' t' tr obs h H HP HO HT u R E1 E2 m s HH HS.
  pose proof (trun_sound col off inp rest_of (fun i => performs (eff i)) fact m n x w t s) as K.
  rewrite H in K. unfold good in K. cbn [obs_of] in K.
  assert (A : at_toks inp rest_of (pos s) w) by (unfold at_toks; rewrite E1; exact HH).
  specialize (K A HS HO). destruct (runc m x s) as [s'|s'| |]; auto.
  destruct K as (K1 & [K2 _] & (l & L1 & L2) & K4). unfold at_toks in K1. rewrite E2 in K1.
  split; [exact K1|]. split; [congruence|]. split; [|exact (K4 eq_refl)]. exists l. auto.
Qed.
Lemma refuse_of : forall fact n x w t t' obs, trun fact n x w t = TFail t' obs -> t_prs t' = t_prs t ->
  Forall ob obs -> refuses t x (text w).
Proof.
  intros fact n x w t t' obs H HP HO m s HH HS.
  pose proof (trun_sound col off inp rest_of (fun i => performs (eff i)) fact m n x w t s) as K.
  rewrite H in K. unfold good in K. cbn [obs_of] in K. specialize (K HH HS HO).
  destruct (runc m x s) as [s'|s'| |]; auto. destruct K as [K _]. congruence.
Qed.

Notation texecr := (texec eff (slice_real inp rest_of) trim chain_real).

(** ** The relation at the start *)
Definition x_node (g : list term) (ops : list oper) : xst := mkx [] None [] [] [] None ops None None false [g].
Definition x_fold (k : nat) (g : list term) (t0 : term) (ops : list oper) : xst :=
  mkx [Some (Some 1) :: repeat None k] None [mkxb None [] [1]] [] [] None ops None None false [g; [t0]].

Lemma nth_map_some : forall (l : list (list node)) h t, nth_error (map (map term_of) l) h = Some [t] ->
  exists n, nth_error l h = Some [n] /\ term_of n = t.
Proof.
  intros l h t H. rewrite nth_error_map in H. destruct (nth_error l h) as [[|n [|? ?]]|]; cbn in H; try discriminate.
  injection H as <-. eauto.
Qed.
Lemma in_rest : forall (g : list node) r2 h n, nth_error (g :: r2) (S h) = Some [n] -> In n (List.concat r2).
Proof. intros g r2 h n H. apply in_concat. exists [n]. split; [eapply nth_error_In; exact H|left; reflexivity]. Qed.

Lemma old_new : forall n g r2 m, (forall i, i < m -> In i (map nid g)) ->
  NoDup (map nid (List.concat (g :: r2))) -> In n (List.concat r2) -> m <= nid n.
Proof.
  intros n g r2 m HG ND HI. cbn [List.concat] in ND. rewrite map_app in ND. destruct (Nat.le_gt_cases m (nid n)) as [H|H]; [exact H|].
  exfalso. specialize (HG _ H). assert (K : In (nid n) (map nid (List.concat r2))) by (apply in_map; exact HI).
  clear - ND HG K. revert ND HG. generalize (map nid g). induction l as [|y l IH]; cbn; intros ND HG; [contradiction|].
  inversion ND as [|? ? N1 N2]; subst. destruct HG as [->|HG]; [apply N1; apply in_or_app; auto|auto].
Qed.
Lemma fresh_mono : forall g r2 m k, (forall i, i < m -> In i (map nid g)) ->
  Forall (fun n => nid n < k) (List.concat (g :: r2)) -> m <= k.
Proof.
  intros g r2 m k HG HF. destruct m as [|m]; [lia|]. specialize (HG m (Nat.lt_succ_diag_r m)).
  apply in_map_iff in HG. destruct HG as (n & <- & HI). rewrite Forall_forall in HF. apply HF. cbn. apply in_or_app. auto.
Qed.
Lemma ghosts_all : forall m i, i < m -> In i (map nid (ghosts m)).
Proof. intros m i H. rewrite ghosts_ids. apply in_seq. lia. Qed.
Lemma lst_0 : forall rho ns, lst rho [] ns -> ns = [].
Proof. intros rho ns (gs & G1 & ->). inversion G1. reflexivity. Qed.
Lemma lst_1 : forall rho h n ns, nth_error rho h = Some n -> lst rho [h] ns -> ns = n.
Proof.
  intros rho h n ns H (gs & G1 & ->). inversion G1 as [|? g ? gs' G2 G3]; subst. inversion G3; subst. cbn. rewrite app_nil_r. congruence.
Qed.

Lemma node_performs : forall tr tm,
  (forall g ops, exists h pv sb hp, texecr tr (x_node g ops) = Some (mkx [] (Some (Some (S h))) [] [] [S h] pv ops sb None false hp) /\
     nth_error hp (S h) = Some [tm]) ->
  forall l, traced inp rest_of (fun i => performs (eff i)) tr l -> performs (HNode tm) l.
Proof.
  intros tr tm HX l HT e a a' b bs HE Hex HB.
  set (g := ghosts (a_fresh a)). set (u := mks (a_frames a) b bs (a_result a) (a_eof a)).
  destruct (HX (map term_of g) (a_ops a)) as (h & pv & sb & hp & EX & EN).
  assert (R : rel u [g] (x_node (map term_of g) (a_ops a)) a).
  { constructor; cbn; auto.
    - rewrite app_nil_r. unfold g. rewrite ghosts_ids. apply seq_NoDup.
    - rewrite app_nil_r. unfold g, ghosts. apply Forall_forall. intros n HI. apply in_map_iff in HI. destruct HI as (i & <- & HI).
      apply in_seq in HI. cbn. lia.
    - exists []. split; [reflexivity|constructor].
    - exists [], [], []. rewrite grow_nil. split; [exact HB|]. split; [constructor|]. split; apply lst_nil. }
  destruct (texec_sound inp rest_of eff _ _ _ EX u [g] l e a a' HT HE R Hex) as (r2 & R2).
  destruct R2 as [Q1 Q2 Q3 (fs & F1 & F2) (b2 & ss & ks & B1 & B2 & B3 & B4) Q6 Q7 Q8 Q9 Q10 Q11]. cbn in *.
  assert (FM : a_fresh a <= a_fresh a') by (apply (fresh_mono g r2); [apply ghosts_all|exact Q3]).
  split; [split; [exact Q10|split; [exact Q11|exact FM]]|].
  inversion F2; subst. split; [exact F1|]. split; [exact Q7|].
  destruct (nth_map_some ([g] ++ r2) (S h) tm EN) as (n & N1 & N2). exists n. split; [exact N2|].
  assert (HI : In n (List.concat r2)) by (apply (in_rest g r2 h); exact N1).
  split; [split; [apply (old_new n g r2); [apply ghosts_all|exact Q2|exact HI]|
    rewrite Forall_forall in Q3; apply Q3; apply in_or_app; auto]|].
  split.
  - unfold vrel in Q8. destruct (a_ret a') as [n'|]; [|contradiction]. cbn in N1. congruence.
  - inversion B2; subst. apply lst_0 in B3. subst ss. apply (lst_1 _ _ [n]) in B4; [|exact N1]. subst ks. exact B1.
Qed.

Lemma Forall2_len5 : forall (A B : Type) (P : A -> B -> Prop) l l', Forall2 P l l' -> List.length l = List.length l'.
Proof. intros A B P l l' H. induction H; cbn; congruence. Qed.
Lemma filter_nodup : forall f (l : list nat), NoDup l -> NoDup (filter f l).
Proof. intros f l H. apply NoDup_filter. exact H. Qed.

Definition gh (a : astate) (n0 : node) : list node :=
  map ghost (filter (fun i => negb (Nat.eqb i (nid n0))) (seq 0 (a_fresh a))).
Lemma gh_ids : forall a n0, map nid (gh a n0) = filter (fun i => negb (Nat.eqb i (nid n0))) (seq 0 (a_fresh a)).
Proof. intros. unfold gh. rewrite map_map. rewrite <- map_id. apply map_ext. reflexivity. Qed.
Lemma gh_all : forall a n0 i, i < a_fresh a -> In i (map nid (gh a n0 ++ [n0])).
Proof.
  intros a n0 i Hi. rewrite map_app, gh_ids. apply in_or_app. destruct (Nat.eq_dec i (nid n0)) as [->|NE]; [right; left; reflexivity|left].
  apply filter_In. split; [apply in_seq; lia|]. apply Nat.eqb_neq in NE. rewrite NE. reflexivity.
Qed.
Lemma gh_nodup : forall a n0, NoDup (map nid (gh a n0 ++ [n0])).
Proof.
  intros a n0. rewrite map_app, gh_ids. cbn. apply (Permutation_NoDup (l := nid n0 :: filter (fun i => negb (Nat.eqb i (nid n0))) (seq 0 (a_fresh a)))).
  - apply Permutation_cons_append.
  - constructor; [|apply NoDup_filter, seq_NoDup]. intros HI. apply filter_In in HI. destruct HI as [_ HI]. rewrite Nat.eqb_refl in HI. discriminate.
Qed.
Lemma gh_old : forall a n0, nid n0 < a_fresh a -> Forall (fun n => nid n < a_fresh a) (gh a n0 ++ [n0]).
Proof.
  intros a n0 H. apply Forall_app. split; [|auto]. apply Forall_forall. intros n HI. apply in_map_iff in HI. destruct HI as (i & <- & HI).
  apply filter_In in HI. destruct HI as [HI _]. apply in_seq in HI. cbn. lia.
Qed.

Lemma fold_performs : forall tr k f,
  (forall g t0 ops, exists h pv sb hp ret st sl1,
     texecr tr (x_fold k g t0 ops) = Some (mkx [Some (Some (S (S h))) :: sl1] ret [mkxb st [] [S (S h)]] [] [] pv ops sb None false hp) /\
     nth_error hp (S (S h)) = Some [f t0] /\ List.length sl1 = k) ->
  forall l, traced inp rest_of (fun i => performs (eff i)) tr l -> performs (HFold k f) l.
Proof.
  intros tr k f HX l HT e a a' b bs HE Hex HB n0 sl fs HF HL HS HK HN HBS.
  set (g := gh a n0).
  destruct bs as [|b1 bs]; [contradiction|]. set (u := mks fs b1 bs (a_result a) (a_eof a)).
  destruct (HX (map term_of g) (term_of n0) (a_ops a)) as (h & pv & sb & hp & ret & st & sl1 & EX & EN & EL).
  pose proof (gh_all a n0) as GA. fold g in GA.
  assert (R : rel u [g; [n0]] (x_fold k (map term_of g) (term_of n0) (a_ops a)) a).
  { constructor; cbn; auto.
    - exact (gh_nodup a n0).
    - exact (gh_old a n0 HN).
    - exists [(Some (Some n0) :: sl)]. split; [exact HF|]. constructor; [|constructor]. constructor; [exists (Some n0); split; reflexivity|].
      clear - HL. revert sl HL. induction k as [|k IH]; intros [|v sl] HL; try discriminate HL; cbn [repeat]; constructor; [exact I|apply IH; cbn in HL; congruence].
    - exists [b], [], []. rewrite grow_nil. split; [exact HB|]. split; [|split; apply lst_nil]. constructor; [|constructor].
      split; [exact I|]. cbn. rewrite HS, HK. split; [apply lst_nil|]. apply lst_one. reflexivity. }
  destruct (texec_sound inp rest_of eff _ _ _ EX u [g; [n0]] l e a a' HT HE R Hex) as (r2 & R2).
  destruct R2 as [Q1 Q2 Q3 (fs2 & F1 & F2) (b2 & ss & ks & B1 & B2 & B3 & B4) Q6 Q7 Q8 Q9 Q10 Q11].
  cbn in Q1, Q2, Q3, F1, F2, B1, B2, B3, B4, Q7, Q10, Q11. rewrite Q1 in EN.
  assert (Q2' : NoDup (map nid (List.concat ((g ++ [n0]) :: r2)))) by (cbn; rewrite <- app_assoc; exact Q2).
  assert (Q3' : Forall (fun n => nid n < a_fresh a') (List.concat ((g ++ [n0]) :: r2))) by (cbn; rewrite <- app_assoc; exact Q3).
  assert (FM : a_fresh a <= a_fresh a') by (apply (fresh_mono (g ++ [n0]) r2); [exact GA|exact Q3']).
  split; [split; [exact Q10|split; [exact Q11|exact FM]]|]. split; [exact Q7|].
  destruct (nth_map_some ([g; [n0]] ++ r2) (S (S h)) _ EN) as (n & N1 & N2).
  assert (HI : In n (List.concat r2)) by (apply (in_rest g r2 h); exact N1).
  inversion F2 as [|? fr ? fs3 F3 F4]; subst. inversion F4; subst. inversion F3 as [|? v0 ? sl' F5 F6]; subst.
  destruct F5 as (m & -> & F5). destruct m as [m|]; [|contradiction]. cbn in F5, N1.
  assert (m = n) by congruence. subst m.
  inversion B2 as [|? b' ? bs' (B5 & B6 & B7) B8]; subst. inversion B8; subst. apply lst_0 in B3, B4, B6. subst ss ks.
  apply (lst_1 _ _ [n]) in B7; [|exact N1].
  exists n, sl', b'. split; [exact N2|].
  split; [split; [apply (old_new n (g ++ [n0]) r2); [exact GA|exact Q2'|exact HI]|
    rewrite Forall_forall in Q3; apply Q3; apply in_or_app; right; right; exact HI]|].
  split; [exact F1|]. split; [apply Forall2_len5 in F6; congruence|].
  rewrite grow_nil in B1. split; [exact B1|]. auto.
Qed.

(** one element of a chain of comparisons, with the frame of [_expression] *)
Definition x_chain (g : list term) (t0 : term) (ops : list oper) : xst :=
  mkx [[Some (Some 1); None; None; None; None; None]] None [] [] [] None ops None None false [g; [t0]].
Lemma chain_performs : forall tr o tm,
  (forall g t0 ops, exists h pv sb hp ret s1 s2 s3 s4 s5,
     texecr tr (x_chain g t0 ops) = Some (mkx [[Some (Some 1); s1; s2; s3; s4; s5]] ret [] [S (S h)] [S (S h)] pv (o :: ops) sb None false hp) /\
     nth_error hp (S (S h)) = Some [tm]) ->
  forall l, traced inp rest_of (fun i => performs (eff i)) tr l -> performs (HChain 5 [o] [tm]) l.
Proof.
  intros tr o tm HX l HT e a a' b bs HE Hex HB n0 sl fs HF HL HN.
  set (g := gh a n0). set (u := mks fs b bs (a_result a) (a_eof a)).
  destruct (HX (map term_of g) (term_of n0) (a_ops a)) as (h & pv & sb & hp & ret & s1 & s2 & s3 & s4 & s5 & EX & EN).
  pose proof (gh_all a n0) as GA. fold g in GA.
  assert (R : rel u [g; [n0]] (x_chain (map term_of g) (term_of n0) (a_ops a)) a).
  { constructor; cbn; auto.
    - exact (gh_nodup a n0).
    - exact (gh_old a n0 HN).
    - exists [(Some (Some n0) :: sl)]. split; [exact HF|]. constructor; [|constructor]. constructor; [exists (Some n0); split; reflexivity|].
      destruct sl as [|v1 [|v2 [|v3 [|v4 [|v5 [|v6 sl]]]]]]; try discriminate HL. repeat constructor.
    - exists [], [], []. rewrite grow_nil. split; [exact HB|]. split; [constructor|split; apply lst_nil]. }
  destruct (texec_sound inp rest_of eff _ _ _ EX u [g; [n0]] l e a a' HT HE R Hex) as (r2 & R2).
  destruct R2 as [Q1 Q2 Q3 (fs2 & F1 & F2) (b2 & ss & ks & B1 & B2 & B3 & B4) Q6 Q7 Q8 Q9 Q10 Q11].
  cbn in Q1, Q2, Q3, F1, F2, B1, B2, B3, B4, Q7, Q10, Q11. rewrite Q1 in EN.
  assert (Q2' : NoDup (map nid (List.concat ((g ++ [n0]) :: r2)))) by (cbn; rewrite <- app_assoc; exact Q2).
  assert (Q3' : Forall (fun n => nid n < a_fresh a') (List.concat ((g ++ [n0]) :: r2))) by (cbn; rewrite <- app_assoc; exact Q3).
  assert (FM : a_fresh a <= a_fresh a') by (apply (fresh_mono (g ++ [n0]) r2); [exact GA|exact Q3']).
  split; [split; [exact Q10|split; [exact Q11|exact FM]]|]. split; [exact Q7|].
  destruct (nth_map_some ([g; [n0]] ++ r2) (S (S h)) _ EN) as (n & N1 & N2).
  assert (HI : In n (List.concat r2)) by (apply (in_rest g r2 h); exact N1).
  inversion F2 as [|? fr ? fs3 F3 F4]; subst. inversion F4; subst. inversion F3 as [|? v0 ? sl' F5 F6]; subst.
  destruct F5 as (m & -> & F5). destruct m as [m|]; [|contradiction]. cbn in F5, N1. injection F5 as <-.
  inversion B2; subst. apply (lst_1 _ _ [n]) in B3; [|exact N1]. apply (lst_1 _ _ [n]) in B4; [|exact N1]. subst ss ks.
  exists [n], sl'. split; [reflexivity|].
  split; [constructor; [|constructor]; split; [apply (old_new n (g ++ [n0]) r2); [exact GA|exact Q2'|exact HI]|
    rewrite Forall_forall in Q3; apply Q3; apply in_or_app; right; right; exact HI]|].
  split; [cbn; constructor; [intros []|constructor]|].
  split; [exact F1|]. split; [rewrite HL; symmetry; apply Forall2_len5 in F6; exact F6|]. exact B1.
Qed.
(** one or more elements of a sequence *)
Definition x_seq (f : skind) (k : nat) (g : list term) (t0 : term) (ops : list oper) : xst :=
  mkx [(match f with SNode => Some (Some 1) | SNull => Some None | SLost => None end) :: repeat None k]
    None [] [] [] None ops None None false [g; match f with SNode => [t0] | _ => [] end].
Lemma handle_id : forall (rho : list (list node)) h1 h2 n1 n2, NoDup (map nid (List.concat rho)) ->
  nth_error rho h1 = Some [n1] -> nth_error rho h2 = Some [n2] -> nid n1 = nid n2 -> h1 = h2.
Proof.
  assert (K : forall (rho : list (list node)) h n, nth_error rho h = Some [n] -> In (nid n) (map nid (List.concat rho))).
  { intros rho h n H. apply in_map. apply in_concat. exists [n]. split; [eapply nth_error_In; eauto|left; reflexivity]. }
  induction rho as [|g rho IH]; intros [|h1] [|h2] n1 n2 ND H1 H2 E; cbn in H1, H2; try discriminate; auto.
  - exfalso. injection H1 as ->. cbn in ND. inversion ND as [|? ? N1 N2]; subst. apply N1. rewrite E. eapply K; eauto.
  - exfalso. injection H2 as ->. cbn in ND. inversion ND as [|? ? N1 N2]; subst. apply N1. rewrite <- E. eapply K; eauto.
  - f_equal. eapply IH; eauto. cbn in ND. rewrite map_app in ND. clear - ND. induction (map nid g) as [|x l IHl]; [exact ND|].
    inversion ND; subst. auto.
Qed.
Lemma handle_nodes : forall (rho : list (list node)) hs ts, NoDup (map nid (List.concat rho)) -> NoDup hs ->
  Forall2 (fun h t => nth_error (map (map term_of) rho) h = Some [t]) hs ts ->
  exists ns, Forall2 (fun h n => nth_error rho h = Some [n]) hs ns /\ map term_of ns = ts /\ NoDup (map nid ns).
Proof.
  intros rho hs ts ND NH H. induction H as [|h t hs ts H1 H2 IH]; [exists []; repeat constructor|].
  inversion NH as [|? ? N1 N2]; subst. destruct (IH N2) as (ns & A & <- & C). destruct (nth_map_some rho h t H1) as (n & B1 & <-).
  exists (n :: ns). split; [constructor; assumption|]. split; [reflexivity|]. cbn. constructor; [|exact C].
  intros HI. apply N1. apply in_map_iff in HI. destruct HI as (n' & E & HI). clear - A B1 ND E HI.
  induction A as [|h' m hs ns A1 A2 IH]; [contradiction|]. destruct HI as [->|HI]; [left; eapply handle_id; eauto|right; auto].
Qed.
Lemma lst_all : forall rho hs ns, Forall2 (fun h n => nth_error rho h = Some [n]) hs ns -> forall ms, lst rho hs ms -> ms = ns.
Proof.
  intros rho hs ns H. induction H as [|h n hs ns H1 H2 IH]; intros ms (gs & G1 & ->); inversion G1 as [|? g ? gs' G2 G3]; subst; [reflexivity|].
  rewrite H1 in G2. injection G2 as <-. cbn. f_equal. apply IH. exists gs'. auto.
Qed.
Lemma seq_performs : forall tr f k ts,
  (forall g t0 ops, exists pv sb hp ret v sl hs,
     texecr tr (x_seq f k g t0 ops) = Some (mkx [v :: sl] ret [] (map (fun h => S (S h)) hs) (map (fun h => S (S h)) hs) pv ops sb None false hp) /\
     List.length sl = k /\ (f = SNode -> v = Some (Some 1)) /\ (f = SNull -> v = Some None) /\ NoDup hs /\
     Forall2 (fun h t => nth_error hp (S (S h)) = Some [t]) hs ts) ->
  forall l, traced inp rest_of (fun i => performs (eff i)) tr l -> performs (HSeq f k ts) l.
Proof.
  intros tr f k ts HX l HT e a a' b bs HE Hex HB v0 sl fs HF HL HO.
  assert (ZS : exists g z t0, [map term_of g; map term_of z] = x_heap (x_seq f k (map term_of g) t0 (a_ops a)) /\
    (forall i, i < a_fresh a -> In i (map nid (g ++ z))) /\ NoDup (map nid (g ++ z)) /\ Forall (fun n => nid n < a_fresh a) (g ++ z) /\
    (f = SNode -> exists n, z = [n] /\ v0 = Some (Some n)) /\ (f = SNull -> v0 = Some None)).
  { destruct f; cbn in HO.
    - destruct HO as (n & -> & HN). exists (gh a n), [n], (term_of n). split; [reflexivity|]. split; [exact (gh_all a n)|].
      split; [exact (gh_nodup a n)|]. split; [exact (gh_old a n HN)|]. split; [eauto|discriminate].
    - exists (ghosts (a_fresh a)), [], (T T_ERROR []). rewrite app_nil_r. split; [reflexivity|]. split; [apply ghosts_all|].
      split; [rewrite ghosts_ids; apply seq_NoDup|]. split; [|split; [discriminate|auto]].
      unfold ghosts. apply Forall_forall. intros n HI. apply in_map_iff in HI. destruct HI as (i & <- & HI). apply in_seq in HI. cbn. lia.
    - exists (ghosts (a_fresh a)), [], (T T_ERROR []). rewrite app_nil_r. split; [reflexivity|]. split; [apply ghosts_all|].
      split; [rewrite ghosts_ids; apply seq_NoDup|]. split; [|split; discriminate].
      unfold ghosts. apply Forall_forall. intros n HI. apply in_map_iff in HI. destruct HI as (i & <- & HI). apply in_seq in HI. cbn. lia. }
  destruct ZS as (g & z & t0 & ZH & GA & GN & GO & ZN & ZL).
  set (u := mks fs b bs (a_result a) (a_eof a)).
  destruct (HX (map term_of g) t0 (a_ops a)) as (pv & sb & hp & ret & v & sl1 & hs & EX & LS & V1 & V2 & NH & EN).
  assert (R : rel u [g; z] (x_seq f k (map term_of g) t0 (a_ops a)) a).
  { constructor; cbn; rewrite ?app_nil_r; auto.
    - exists [(v0 :: sl)]. split; [exact HF|]. constructor; [|constructor]. constructor.
      + destruct f; cbn; auto.
        * destruct (ZN eq_refl) as (n & -> & ->). exists (Some n). split; reflexivity.
        * rewrite (ZL eq_refl). exists None. split; [reflexivity|exact I].
      + clear - HL. revert k HL. induction sl as [|w sl IH]; intros [|k] HL; try discriminate; cbn; constructor; [exact I|]. apply IH. cbn in HL. lia.
    - exists [], [], []. rewrite grow_nil. split; [exact HB|]. split; [constructor|split; apply lst_nil]. }
  destruct (texec_sound inp rest_of eff _ _ _ EX u [g; z] l e a a' HT HE R Hex) as (r2 & R2).
  destruct R2 as [Q1 Q2 Q3 (fs2 & F1 & F2) (b2 & ss & ks & B1 & B2 & B3 & B4) Q6 Q7 Q8 Q9 Q10 Q11].
  cbn [x_heap x_frames x_blocks x_bseq x_bkids x_ops u_frames u_block u_blocks u_result u_eof u x_res x_eof] in *.
  assert (Q2' : NoDup (map nid (List.concat ((g ++ z) :: r2)))) by (cbn in Q2 |- *; rewrite <- app_assoc; exact Q2).
  assert (Q3' : Forall (fun n => nid n < a_fresh a') (List.concat ((g ++ z) :: r2))) by (cbn in Q3 |- *; rewrite <- app_assoc; exact Q3).
  assert (FM : a_fresh a <= a_fresh a') by (apply (fresh_mono (g ++ z) r2); [exact GA|exact Q3']).
  split; [split; [exact Q10|split; [exact Q11|exact FM]]|]. split; [exact Q7|].
  assert (EN' : Forall2 (fun h t => nth_error (map (map term_of) ([g; z] ++ r2)) h = Some [t]) (map (fun h => S (S h)) hs) ts).
  { rewrite <- Q1. clear - EN. induction EN; cbn; constructor; auto. }
  assert (NH' : NoDup (map (fun h => S (S h)) hs)).
  { clear - NH. induction NH as [|x l N1 N2 IH]; cbn; constructor; auto. intros HI. apply N1. apply in_map_iff in HI.
    destruct HI as (y & E & HI). injection E as ->. exact HI. }
  destruct (handle_nodes _ _ _ Q2 NH' EN') as (ns & M1 & M2 & M3).
  inversion F2 as [|? fr ? fs3 F3 F4]; subst. inversion F4; subst. inversion F3 as [|? w0 ? sl' F5 F6]; subst.
  inversion B2; subst. apply (lst_all _ _ _ M1) in B3, B4. subst ss ks.
  exists ns, w0, sl'. split; [reflexivity|]. split.
  { apply Forall_forall. intros n HI.
    assert (HC : In n (List.concat r2)).
    { clear - M1 HI. remember (map (fun h => S (S h)) hs) as l eqn:E. revert hs E. induction M1 as [|h m l ms A1 A2 IH]; intros hs E; [contradiction|].
      destruct hs as [|h0 hs]; [discriminate|]. injection E as -> E. destruct HI as [->|HI]; [|eapply IH; eauto].
      cbn in A1. apply in_concat. exists [n]. split; [eapply nth_error_In; eauto|left; reflexivity]. }
    split; [apply (old_new n (g ++ z) r2); [exact GA|exact Q2'|exact HC]|].
    rewrite Forall_forall in Q3'. apply Q3'. cbn. apply in_or_app. right. exact HC. }
  split; [exact M3|]. split; [exact F1|]. split.
  { intros HF2. destruct f; [| |congruence].
    - rewrite (V1 eq_refl) in F5. destruct (ZN eq_refl) as (n & -> & ->). destruct F5 as (m & -> & F5). destruct m as [m|]; [|contradiction].
      cbn in F5. injection F5 as <-. reflexivity.
    - rewrite (V2 eq_refl) in F5. rewrite (ZL eq_refl). destruct F5 as (m & -> & F5). destruct m as [m|]; [contradiction|]. reflexivity. }
  split; [apply Forall2_len5 in F6; congruence|]. exact B1.
Qed.
(** elements of a sequence, with the variables that are written *)
Lemma group_id : forall (rho : list (list node)) h1 h2 g1 g2 n1 n2, NoDup (map nid (List.concat rho)) ->
  nth_error rho h1 = Some g1 -> nth_error rho h2 = Some g2 -> In n1 g1 -> In n2 g2 -> nid n1 = nid n2 -> h1 = h2.
Proof.
  assert (K : forall (rho : list (list node)) h g n, nth_error rho h = Some g -> In n g -> In (nid n) (map nid (List.concat rho))).
  { intros rho h g n H HI. apply in_map. apply in_concat. exists g. split; [eapply nth_error_In; eauto|exact HI]. }
  assert (D : forall (l r : list nat) x, NoDup (l ++ r) -> In x l -> In x r -> False).
  { induction l as [|y l IH]; intros r x ND [] HR; cbn in ND; inversion ND; subst; [apply H2; apply in_or_app; auto|eapply IH; eauto]. }
  induction rho as [|g rho IH]; intros [|h1] [|h2] g1 g2 n1 n2 ND H1 H2 I1 I2 E; cbn in H1, H2; try discriminate; auto; cbn in ND; rewrite map_app in ND.
  - exfalso. injection H1 as ->. apply (D _ _ (nid n1) ND); [apply in_map; exact I1|rewrite E; eapply K; eauto].
  - exfalso. injection H2 as ->. apply (D _ _ (nid n2) ND); [apply in_map; exact I2|rewrite <- E; eapply K; eauto].
  - f_equal. eapply IH; eauto. clear - ND. induction (map nid g) as [|x l IHl]; [exact ND|]. inversion ND; subst. auto.
Qed.
Lemma group_nodup : forall (rho : list (list node)) h g, NoDup (map nid (List.concat rho)) -> nth_error rho h = Some g -> NoDup (map nid g).
Proof.
  induction rho as [|g0 rho IH]; intros [|h] g ND H; cbn in H; try discriminate; cbn in ND; rewrite map_app in ND.
  - injection H as <-. clear - ND. induction (map nid g0) as [|x l IHl]; [constructor|]. cbn in ND. inversion ND; subst. constructor; [|auto].
    intros HI. apply H1. apply in_or_app. auto.
  - eapply IH; eauto. clear - ND. induction (map nid g0) as [|x l IHl]; [exact ND|]. inversion ND; subst. auto.
Qed.
Lemma handle_groups : forall (rho : list (list node)) hs gs, NoDup (map nid (List.concat rho)) -> NoDup hs ->
  Forall2 (fun h g => nth_error (map (map term_of) rho) h = Some g) hs gs ->
  exists ns, Forall2 (fun h n => nth_error rho h = Some n) hs ns /\ map term_of (List.concat ns) = List.concat gs /\ NoDup (map nid (List.concat ns)).
Proof.
  intros rho hs gs ND NH H. induction H as [|h g hs gs H1 H2 IH]; [exists []; repeat constructor|].
  inversion NH as [|? ? N1 N2]; subst. destruct (IH N2) as (ns & A & E & C). rewrite nth_error_map in H1.
  destruct (nth_error rho h) as [g0|] eqn:H0; [|discriminate]. cbn in H1. injection H1 as <-.
  exists (g0 :: ns). split; [constructor; assumption|]. split; [cbn; rewrite map_app, E; reflexivity|]. cbn. rewrite map_app.
  assert (D : forall n n', In n g0 -> In n' (List.concat ns) -> nid n <> nid n').
  { intros n n' I1 I2 EE. apply N1. clear - A H0 ND EE I1 I2. induction A as [|h' m hs ns A1 A2 IH]; [contradiction|]. cbn in I2. apply in_app_or in I2.
    destruct I2 as [I2|I2]; [left; symmetry; eapply group_id; [exact ND|exact H0|exact A1|exact I1|exact I2|exact EE]|right; auto]. }
  pose proof (group_nodup rho h g0 ND H0) as GN. clear - C D GN. induction g0 as [|x l IHl]; [exact C|]. cbn in GN |- *. inversion GN; subst. constructor.
  - intros HI. apply in_app_or in HI. destruct HI as [HI|HI]; [contradiction|]. apply in_map_iff in HI. destruct HI as (n' & E & HI).
    apply (D x n'); [left; reflexivity|exact HI|symmetry; exact E].
  - apply IHl; [intros n n' I1; apply D; right; exact I1|assumption].
Qed.
Lemma lst_groups : forall rho hs ns, Forall2 (fun h n => nth_error rho h = Some n) hs ns -> forall ms, lst rho hs ms -> ms = List.concat ns.
Proof.
  intros rho hs ns H. induction H as [|h n hs ns H1 H2 IH]; intros ms (gs & G1 & ->); inversion G1 as [|? g ? gs' G2 G3]; subst; [reflexivity|].
  rewrite H1 in G2. injection G2 as <-. cbn. f_equal. apply IH. exists gs'. auto.
Qed.
Definition x_grow (n : nat) (g : list term) (ops : list oper) : xst := mkx [repeat None n] None [] [] [] None ops None None false [g].
Lemma grow_performs : forall tr n ws ts, sets_in eff ws tr 0 = true ->
  (forall g ops, exists pv sb hp ret fr hs gs,
     texecr tr (x_grow n g ops) = Some (mkx [fr] ret [] (map S hs) (map S hs) pv ops sb None false hp) /\
     List.length fr = n /\ NoDup hs /\ Forall2 (fun h g => nth_error hp (S h) = Some g) hs gs /\ List.concat gs = ts) ->
  forall l, traced inp rest_of (fun i => performs (eff i)) tr l -> performs (HGrow n ws ts) l.
Proof.
  intros tr n ws ts HW HX l HT e a a' b bs HE Hex HB fr0 fs HF HL.
  set (g := ghosts (a_fresh a)). set (u := mks fs b bs (a_result a) (a_eof a)).
  destruct (HX (map term_of g) (a_ops a)) as (pv & sb & hp & ret & fr & hs & gs & EX & LS & NH & EN & EC).
  assert (R : rel u [g] (x_grow n (map term_of g) (a_ops a)) a).
  { constructor; cbn; auto.
    - rewrite app_nil_r. unfold g. rewrite ghosts_ids. apply seq_NoDup.
    - rewrite app_nil_r. unfold g, ghosts. apply Forall_forall. intros m HI. apply in_map_iff in HI. destruct HI as (i & <- & HI).
      apply in_seq in HI. cbn. lia.
    - exists [fr0]. split; [exact HF|]. constructor; [|constructor]. clear - HL. subst n.
      induction fr0 as [|w sl IH]; cbn; constructor; [exact I|exact IH].
    - exists [], [], []. rewrite grow_nil. split; [exact HB|]. split; [constructor|split; apply lst_nil]. }
  destruct (texec_same inp rest_of eff _ _ _ _ _ EX HW u [g] l e a a' HT HE R Hex [] fr0 fs HF eq_refl) as (fr' & S1 & S2 & S3).
  destruct (texec_sound inp rest_of eff _ _ _ EX u [g] l e a a' HT HE R Hex) as (r2 & R2).
  destruct R2 as [Q1 Q2 Q3 (fs2 & F1 & F2) (b2 & ss & ks & B1 & B2 & B3 & B4) Q6 Q7 Q8 Q9 Q10 Q11].
  cbn [x_heap x_frames x_blocks x_bseq x_bkids x_ops u_frames u_block u_blocks u_result u_eof u x_res x_eof] in *.
  assert (FM : a_fresh a <= a_fresh a') by (apply (fresh_mono g r2); [apply ghosts_all|exact Q3]).
  split; [split; [exact Q10|split; [exact Q11|exact FM]]|]. split; [exact Q7|].
  assert (EN' : Forall2 (fun h t => nth_error (map (map term_of) ([g] ++ r2)) h = Some t) (map S hs) gs).
  { rewrite <- Q1. clear - EN. induction EN; cbn; constructor; auto. }
  assert (NH' : NoDup (map S hs)).
  { clear - NH. induction NH as [|x l N1 N2 IH]; cbn; constructor; auto. intros HI. apply N1. apply in_map_iff in HI.
    destruct HI as (y & E & HI). injection E as ->. exact HI. }
  destruct (handle_groups _ _ _ Q2 NH' EN') as (ns & M1 & M2 & M3).
  inversion B2; subst. apply (lst_groups _ _ _ M1) in B3, B4. subst ss ks.
  exists (List.concat ns), fr'. split; [exact M2|]. split.
  { apply Forall_forall. intros m HI.
    assert (HC : In m (List.concat r2)).
    { clear - M1 HI. remember (map S hs) as l eqn:E. revert hs E. induction M1 as [|h k l ms A1 A2 IH]; intros hs E; [contradiction|].
      destruct hs as [|h0 hs]; [discriminate|]. injection E as -> E. cbn in HI. apply in_app_or in HI. destruct HI as [HI|HI]; [|eapply IH; eauto].
      cbn in A1. apply in_concat. exists k. split; [eapply nth_error_In; eauto|exact HI]. }
    split; [apply (old_new m g r2); [apply ghosts_all|exact Q2|exact HC]|].
    rewrite Forall_forall in Q3. apply Q3. cbn. apply in_or_app. right. exact HC. }
  split; [exact M3|]. split; [exact S1|]. split; [congruence|]. split; [exact S3|]. exact B1.
Qed.
End Holes.

(** *** Composition *)
Lemma performs_fold_app : forall k f1 f2 l1 l2, performs (HFold k f1) l1 -> performs (HFold k f2) l2 ->
  performs (HFold k (fun t => f2 (f1 t))) (l1 ++ l2).
Proof.
  intros k f1 f2 l1 l2 H1 H2 e a a' b bs HE Hex HB n0 sl fs HF HL HS HK HN HBS.
  rewrite exec_app in Hex. destruct (exec e l1 a) as [a1| | |] eqn:E1; cbn in Hex; try discriminate.
  destruct (H1 e a a1 b bs HE E1 HB n0 sl fs HF HL HS HK HN HBS) as ((K1 & K2 & K3) & K4 & n & sl' & b' & N1 & [N2 N3] & N4 & N5 & N6 & N7 & N8).
  destruct (H2 e a1 a' b' bs HE Hex N6 n sl' fs N4 ltac:(congruence) N7 N8 N3 HBS)
    as ((J1 & J2 & J3) & J4 & n2 & sl2 & b2 & M1 & [M2 M3] & M4 & M5 & M6 & M7 & M8).
  split; [split; [congruence|split; [congruence|lia]]|]. split; [congruence|].
  exists n2, sl2, b2. split; [congruence|]. split; [split; lia|]. split; [exact M4|]. split; [congruence|]. auto.
Qed.
Lemma performs_chain_app : forall k o1 t1 o2 t2 l1 l2, performs (HChain k o1 t1) l1 -> performs (HChain k o2 t2) l2 ->
  performs (HChain k (o1 ++ o2) (t1 ++ t2)) (l1 ++ l2).
Proof.
  intros k o1 t1 o2 t2 l1 l2 H1 H2 e a a' b bs HE Hex HB n0 sl fs HF HL HN.
  rewrite exec_app in Hex. destruct (exec e l1 a) as [a1| | |] eqn:E1; cbn in Hex; try discriminate.
  destruct (H1 e a a1 b bs HE E1 HB n0 sl fs HF HL HN) as ((K1 & K2 & K3) & K4 & ns & sl' & N1 & N2 & N3 & N4 & N5 & N6).
  destruct (H2 e a1 a' _ bs HE Hex N6 n0 sl' fs N4 ltac:(congruence) ltac:(lia))
    as ((J1 & J2 & J3) & J4 & ns2 & sl2 & M1 & M2 & M3 & M4 & M5 & M6).
  split; [split; [congruence|split; [congruence|lia]]|]. split; [rewrite J4, K4, rev_app_distr, app_assoc; reflexivity|].
  exists (ns ++ ns2), sl2. split; [rewrite map_app; congruence|]. split.
  { apply Forall_app. split; eapply Forall_impl; [|exact N2| |exact M2]; intros n [? ?]; split; lia. }
  split.
  { rewrite map_app. rewrite Forall_forall in N2, M2.
    assert (D : forall i, In i (map nid ns) -> ~ In i (map nid ns2)).
    { intros i HI HJ. apply in_map_iff in HI. apply in_map_iff in HJ. destruct HI as (x & X1 & X2). destruct HJ as (y & Y1 & Y2).
      specialize (N2 _ X2). specialize (M2 _ Y2). unfold between in *. lia. }
    clear - N3 M3 D. induction (map nid ns) as [|x l IH]; cbn; [exact M3|]. inversion N3; subst. constructor.
    - intros HI. apply in_app_or in HI. destruct HI as [HI|HI]; [contradiction|]. apply (D x); [left; reflexivity|exact HI].
    - apply IH; [assumption|]. intros i HI. apply D. right. exact HI. }
  split; [exact M4|]. split; [congruence|]. rewrite M6. rewrite grow_grow. reflexivity.
Qed.
Lemma performs_seq_app : forall f k t1 t2 l1 l2, performs (HSeq f k t1) l1 -> performs (HSeq f k t2) l2 ->
  performs (HSeq f k (t1 ++ t2)) (l1 ++ l2).
Proof.
  intros f k t1 t2 l1 l2 H1 H2 e a a' b bs HE Hex HB v0 sl fs HF HL HN.
  rewrite exec_app in Hex. destruct (exec e l1 a) as [a1| | |] eqn:E1; cbn in Hex; try discriminate.
  destruct (H1 e a a1 b bs HE E1 HB v0 sl fs HF HL HN) as ((K1 & K2 & K3) & K4 & ns & v1 & sl' & N1 & N2 & N3 & N4 & N4' & N5 & N6).
  assert (HN1 : slot_ok f v1 a1).
  { destruct f; cbn in *; auto.
    - destruct HN as (n & -> & HN). exists n. split; [apply N4'; discriminate|lia].
    - rewrite N4'; [exact HN|discriminate]. }
  destruct (H2 e a1 a' _ bs HE Hex N6 v1 sl' fs N4 ltac:(congruence) HN1)
    as ((J1 & J2 & J3) & J4 & ns2 & v2 & sl2 & M1 & M2 & M3 & M4 & M4' & M5 & M6).
  split; [split; [congruence|split; [congruence|lia]]|]. split; [congruence|].
  exists (ns ++ ns2), v2, sl2. split; [rewrite map_app; congruence|]. split.
  { apply Forall_app. split; eapply Forall_impl; [|exact N2| |exact M2]; intros n [? ?]; split; lia. }
  split.
  { rewrite map_app. rewrite Forall_forall in N2, M2.
    assert (D : forall i, In i (map nid ns) -> ~ In i (map nid ns2)).
    { intros i HI HJ. apply in_map_iff in HI. apply in_map_iff in HJ. destruct HI as (x & X1 & X2). destruct HJ as (y & Y1 & Y2).
      specialize (N2 _ X2). specialize (M2 _ Y2). unfold between in *. lia. }
    clear - N3 M3 D. induction (map nid ns) as [|x l IH]; cbn; [exact M3|]. inversion N3; subst. constructor.
    - intros HI. apply in_app_or in HI. destruct HI as [HI|HI]; [contradiction|]. apply (D x); [left; reflexivity|exact HI].
    - apply IH; [assumption|]. intros i HI. apply D. right. exact HI. }
  split; [exact M4|]. split; [intros HF2; rewrite M4', N4'; auto|]. split; [congruence|]. rewrite M6. rewrite grow_grow. reflexivity.
Qed.
Lemma performs_grow_app : forall n ws t1 t2 l1 l2, performs (HGrow n ws t1) l1 -> performs (HGrow n ws t2) l2 ->
  performs (HGrow n ws (t1 ++ t2)) (l1 ++ l2).
Proof.
  intros n ws t1 t2 l1 l2 H1 H2 e a a' b bs HE Hex HB fr fs HF HL.
  rewrite exec_app in Hex. destruct (exec e l1 a) as [a1| | |] eqn:E1; cbn in Hex; try discriminate.
  destruct (H1 e a a1 b bs HE E1 HB fr fs HF HL) as ((K1 & K2 & K3) & K4 & ns & fr1 & N1 & N2 & N3 & N4 & N4' & N5 & N6).
  destruct (H2 e a1 a' _ bs HE Hex N6 fr1 fs N4 N4')
    as ((J1 & J2 & J3) & J4 & ns2 & fr2 & M1 & M2 & M3 & M4 & M4' & M5 & M6).
  split; [split; [congruence|split; [congruence|lia]]|]. split; [congruence|].
  exists (ns ++ ns2), fr2. split; [rewrite map_app; congruence|]. split.
  { apply Forall_app. split; eapply Forall_impl; [|exact N2| |exact M2]; intros m [? ?]; split; lia. }
  split.
  { rewrite map_app. rewrite Forall_forall in N2, M2.
    assert (D : forall i, In i (map nid ns) -> ~ In i (map nid ns2)).
    { intros i HI HJ. apply in_map_iff in HI. apply in_map_iff in HJ. destruct HI as (x & X1 & X2). destruct HJ as (y & Y1 & Y2).
      specialize (N2 _ X2). specialize (M2 _ Y2). unfold between in *. lia. }
    clear - N3 M3 D. induction (map nid ns) as [|x l IH]; cbn; [exact M3|]. inversion N3; subst. constructor.
    - intros HI. apply in_app_or in HI. destruct HI as [HI|HI]; [contradiction|]. apply (D x); [left; reflexivity|exact HI].
    - apply IH; [assumption|]. intros i HI. apply D. right. exact HI. }
  split; [exact M4|]. split; [exact M4'|]. split; [intros i Hi; rewrite M5, N5; auto|]. rewrite M6. rewrite grow_grow. reflexivity.
Qed.
Lemma performs_none : performs HNone [].
Proof. intros e a a' b bs HE Hex HB. cbn in Hex. injection Hex as <-. reflexivity. Qed.
End Step.
