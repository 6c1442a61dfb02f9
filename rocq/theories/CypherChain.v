(** * What the segments of a parse contain *)
From Coq Require Import List Bool Arith ZArith Lia Sorted.
From Verif Require Import Peg PegProofs PegThunks LineSafe QuickModel QuickSpec QuickProofs QuickProps
  CypherSyntax CypherGrammar OperModel ErrModel CypherMatch CypherInv
  AstTypes AstModel CypherBuild CypherExec CypherParse CypherRound CypherSpec ExecRange CypherLoop NodeFacts.
Import ListNotations.

Opaque parse_one cfuel.
Strategy expand [crun].

(** ** Errors are given a context, otherwise left alone *)
Definition filled (e : xenv) (x y : perror) : Prop :=
  pe_pos y = pe_pos x /\ pe_msg y = pe_msg x /\
  exists c, pe_ctx y = Some c /\
    line_context (firstn (e_limit e) (e_inp e)) (offset (pe_pos x) - offset (e_off e)) 80 = Some c.

Definition errs_inv (e : xenv) (es : list perror) (a : astate) : Prop :=
  a_errs a = es \/ Forall2 (filled e) es (a_errs a).

Lemma fill_none : forall e l l', Forall (fun x => pe_ctx x = None) l ->
  fill_contexts e l = XOk l' -> Forall2 (filled e) l l'.
Proof.
  intros e. induction l as [|x l IH]; intros l' H Hx; cbn [fill_contexts] in Hx.
  - injection Hx as <-. constructor.
  - inversion H; subst. rewrite H2 in Hx. destruct (line_context _ _ _) as [c|] eqn:El; [|discriminate].
    xinv Hx. injection Hx as <-. constructor; [|apply IH; auto].
    split; [reflexivity|]. split; [reflexivity|]. exists c. auto.
Qed.

Lemma fill_same : forall e l l', Forall (fun x => pe_ctx x <> None) l ->
  fill_contexts e l = XOk l' -> l' = l.
Proof.
  intros e [|x l] l' H Hx; cbn [fill_contexts] in Hx; [congruence|].
  inversion H; subst. destruct (pe_ctx x); congruence.
Qed.

Lemma filled_some : forall e l l', Forall2 (filled e) l l' -> Forall (fun x => pe_ctx x <> None) l'.
Proof.
  induction 1 as [|x y l l' [_ [_ [c [H _]]]] _ IH]; constructor; [congruence|auto].
Qed.

Lemma Forall2_rev : forall {X Y} (R : X -> Y -> Prop) l l', Forall2 R l l' -> Forall2 R (rev l) (rev l').
Proof.
  induction 1; cbn; [constructor|]. apply Forall2_app; auto.
Qed.

Lemma finished_errs : forall e es a a', Forall (fun x => pe_ctx x = None) es ->
  errs_inv e es a -> do_finished e a = XOk a' -> Forall2 (filled e) es (a_errs a').
Proof.
  intros e es a a' Hn HI H. unfold do_finished in H. xinv H. injection H as <-. cbn [a_errs set_errs].
  destruct HI as [HI|HI].
  - subst es. apply fill_none in E; [|apply Forall_rev; exact Hn].
    apply Forall2_rev in E. rewrite rev_involutive in E. exact E.
  - apply fill_same in E; [|apply Forall_rev; eapply filled_some; exact HI].
    subst. rewrite rev_involutive. exact HI.
Qed.

Lemma errs_same : forall e es a a', a_errs a' = a_errs a -> errs_inv e es a -> errs_inv e es a'.
Proof. intros e es a a' H. unfold errs_inv. rewrite H. auto. Qed.

Lemma exec_stmt_errs : forall e es s a a', Forall (fun x => pe_ctx x = None) es ->
  errs_inv e es a -> exec_stmt e s a = XOk a' -> errs_inv e es a'.
Proof.
  intros e es s. induction s as [|x|x| |s| | |o|r|l r|x s IH]; intros a a' Hn HI H;
    try (pose proof (exec_stmt_frame _ _ _ _ H) as [_ [F _]]; eapply errs_same; [apply F; reflexivity|exact HI]).
  - right. eapply finished_errs; eauto.
  - cbn [exec_stmt] in H. xinv H.
    destruct (match x0 with Some _ => _ | None => _ end); [injection H as <-; exact HI|eauto].
Qed.

Lemma exec_action_errs : forall e es t p a a', Forall (fun x => pe_ctx x = None) es ->
  errs_inv e es a -> exec_action e t p a = XOk a' -> errs_inv e es a'.
Proof.
  intros e es t p a a' Hn HI H. destruct t as [n|n|k| | | | |l];
    try (pose proof (exec_action_frame _ _ _ _ _ H) as [_ [F _]]; eapply errs_same; [apply F; reflexivity|exact HI]).
  cbn [exec_action] in H. revert a HI H. induction l as [|s l IH]; intros a HI H; cbn [exec_stmts] in H.
  - injection H as <-. exact HI.
  - xinv H. eapply IH; [|exact H]. eapply exec_stmt_errs; eauto.
Qed.

Lemma exec_errs : forall e es ts a a', Forall (fun x => pe_ctx x = None) es ->
  errs_inv e es a -> exec e ts a = XOk a' -> errs_inv e es a'.
Proof.
  intros e es ts. induction ts as [|[t p] ts IH]; intros a a' Hn HI H; cbn [exec] in H.
  - injection H as <-. exact HI.
  - xinv H. eapply IH; [exact Hn| |exact H]. eapply exec_action_errs; eauto.
Qed.

Lemma exec_errs_end : forall e es ts p a a', Forall (fun x => pe_ctx x = None) es ->
  a_errs a = es -> exec e (ts ++ [(TDo [SFinished], p)]) a = XOk a' -> Forall2 (filled e) es (a_errs a').
Proof.
  intros e es ts p a a' Hn HI H. rewrite exec_app in H. xinv H.
  cbn in H. xinv H. injection H as <-.
  xinv E0. injection E0 as <-.
  eapply finished_errs; [exact Hn| |exact E1]. eapply exec_errs; [exact Hn|left; exact HI|exact E].
Qed.

(** ** One round *)

(** the position of byte [p] of a round, as the library computes it *)
Definition at_byte (off : position) (lines : list nat) (p : nat) : position :=
  match input_position off lines p with Some x => x | None => mkpos 0 0 (p + offset off) end.

Lemma at_byte_offset : forall off lines p, offset (at_byte off lines p) = p + offset off.
Proof.
  intros. unfold at_byte, input_position. destruct (find_line lines p) as [[d t]|]; reflexivity.
Qed.

Lemma at_byte_some : forall off lines p, In 0 lines ->
  input_position off lines p = Some (at_byte off lines p).
Proof.
  intros off lines p H. unfold at_byte. destruct (find_line_zero lines p H) as [d [t E]].
  unfold input_position. rewrite E. reflexivity.
Qed.

Definition x_of (la : lookahead) (inp : bytes) (y : carry) (lines : list nat) (p : nat) : xenv :=
  mkxe inp (la inp p) (y_off y) lines p.

Record detail (cf : config) (la : lookahead) (inp : bytes) (y : carry) (p : nat)
    (lines : list nat) (a : astate) (u : cuser) : Prop := {
  d_nodes : Forall (node_ok (x_of la inp y lines p) (at_byte (y_off y) lines))
                   (forest (match a_blocks a with b :: _ => b_kids b | [] => [] end));
  d_roots : StronglySorted le (map (fun k => offset (r_end (nrng k)))
                   (match a_blocks a with b :: _ => b_kids b | [] => [] end));
  d_lines : bq_ok inp -> quiet y -> forall q, q <= p -> at_byte (y_off y) lines q = walk (y_off y) (firstn q inp);
  d_errs : bq_ok inp -> quiet y ->
    et_ok (cf_color cf) (y_off y) inp (c_et u) /\
    Forall2 (filled (x_of la inp y lines p)) (et_errs (c_et u)) (a_errs a);
  d_op : c_precs u = [] }.

Lemma LI_zero : forall g, LI g 0 [0].
Proof. intros g. exists 0. split; [lia|reflexivity]. Qed.

Lemma match_quiet : forall cf r inp y s, entry r ->
  crun (cf_color cf) (y_off y) (cfuel inp) inp (PRule r) (match_start y) = ROk s ->
  quiet y -> bq_ok inp -> LI (get_of inp) (pos s) (c_lines (user s)) /\
     et_ok (cf_color cf) (y_off y) inp (c_et (user s)).
Proof.
  intros cf r inp y s Hr Hx Hq Hbq.
  destruct (match_ok (cf_color cf) (y_off y) inp r (match_start y) Hbq Hr (Nat.le_0_l _)
     (LI_zero _) (et_ok_start _ _ _ _ (proj2 Hq) (proj1 Hq))) as [s' [E [H1 H2]]].
  unfold crun in Hx. rewrite Hx in E. injection E as <-. auto.
Qed.

Lemma detail_k : forall cf la r inp y k s a, entry r ->
  crun (cf_color cf) (y_off y) k inp (PRule r) (match_start y) = ROk s ->
  (quiet y -> bq_ok inp -> LI (get_of inp) (pos s) (c_lines (user s)) /\
     et_ok (cf_color cf) (y_off y) inp (c_et (user s))) ->
  pos s <= List.length inp -> In 0 (c_lines (user s)) ->
  exec (x_of la inp y (c_lines (user s)) (pos s)) (rev (thunks s))
    (mkas [] (y_ret y) [top_block (cf_position cf)] None [] (y_sb y) None false
          (y_consumed y) (et_errs (c_et (user s))) (y_fresh y) []) = XOk a ->
  (exists b, a_blocks a = [b] /\ b_top b = true /\ b_seq b = []) ->
  c_precs (user s) = [] ->
  detail cf la inp y (pos s) (c_lines (user s)) a (user s).
Proof.
  intros cf la r inp y k s a Hr Hx HD F1 F5 He [b [Hb [Ht Hs]]] Hc. unfold crun in Hx.
  assert (HS : StronglySorted le (0 :: map snd (rev (thunks s))) /\ Forall (fun t => snd t <= pos s) (rev (thunks s))).
  { assert (HT : tsorted s).
    { eapply run_tsorted; [|exact Hx]. split; constructor. }
    destruct HT as [T1 T2]. split.
    - constructor; [apply ssorted_rev; exact T1|]. apply Forall_forall. intros; lia.
    - apply Forall_rev. exact T2. }
  destruct HS as [HS1 HS2].
  set (e := x_of la inp y (c_lines (user s)) (pos s)) in *.
  set (ps := at_byte (y_off y) (c_lines (user s))) in *.
  assert (HP : forall q, q <= e_pos e -> x_position e q = XOk (ps q)).
  { intros q _. unfold x_position. cbn [e_off e_lines e x_of]. rewrite at_byte_some by exact F5. reflexivity. }
  assert (HO : forall q, offset (ps q) = q + offset (e_off e)) by (intros; apply at_byte_offset).
  assert (HI : inv e ps (pos s) a).
  { eapply (exec_inv e ps HP HO _ 0); [apply Nat.le_0_l| |exact HS1|exact HS2|exact He].
    split; [cbn; lia|]. intros _. split; [apply Nat.le_0_l|]. cbn [a_blocks a_prev].
    split; [|exact I]. cbn [stack_ok]. exists 0. split; [reflexivity|]. split; [lia|].
    split; [apply kids_nil|exact I]. }
  destruct HI as [_ HI]. rewrite Hb in HI.
  assert (tops [b] = 1) as Htop by (cbn; rewrite Ht; reflexivity).
  destruct (HI Htop) as [_ [[b0 [_ [_ [[K1 [_ K3]] _]]]] _]].
  assert (HE : forall Hbq : bq_ok inp, quiet y -> Forall2 (filled e) (et_errs (c_et (user s))) (a_errs a)).
  { intros Hbq Hq. destruct (HD Hq Hbq) as [_ [_ _ D3 _ _ _]].
    destruct (last_thunk _ _ _ _ _ _ _ Hr Hx) as [ts Hts].
    rewrite Hts in He. cbn [rev] in He. eapply exec_errs_end; [| |exact He]; [|reflexivity].
    eapply Forall_impl; [|exact D3]. intros z [q [ls Hz]]. apply Hz. }
  split.
  - rewrite Hb. clear - K1. unfold forest. induction K1; cbn; [constructor|]. apply Forall_app. auto.
  - rewrite Hb. exact K3.
  - intros Hbq Hq q Hle. unfold at_byte. destruct (HD Hq Hbq) as [D1 _].
    rewrite (position_LI inp (y_off y) _ (pos s)) by (auto; lia). reflexivity.
  - intros Hbq Hq. split; [apply (HD Hq Hbq)|apply HE; auto].
  - exact Hc.
Qed.

Lemma round_detail : forall cf la r inp y p lines a u, entry r ->
  parse_one cf la r inp y = RdOk p lines a u -> detail cf la inp y p lines a u.
Proof.
  intros cf la r inp y p lines a u Hr H.
  pose proof (round_ok _ _ _ _ _ _ _ _ _ Hr H) as [F1 F2 F3 F4 F5].
  rewrite parse_one_eq in H. apply finish_one_ok in H.
  destruct H as [s [Hx [-> [-> [-> [He [Hb [Hv [Ho Hc]]]]]]]]].
  pose proof (match_quiet _ _ _ _ _ Hr Hx) as HD.
  eapply detail_k; eauto.
Qed.

(** ** All rounds *)

Lemma produced_offset : forall cf la r inp o y p a u en seg,
  produced cf la r inp o y p a u en seg -> offset en = p + offset (y_off y).
Proof.
  intros cf la r inp o y p a u en seg [[lines [_ H]] _ _ _ _]. unfold input_position in H.
  destruct (find_line lines p) as [[d t]|]; [|discriminate]. injection H as <-. reflexivity.
Qed.

Lemma produced_eof : forall cf la r inp o y p a u en seg, entry r ->
  produced cf la r inp o y p a u en seg -> a_eof a = true -> p = List.length inp.
Proof.
  intros cf la r inp o y p a u en seg Hr [[lines [H _]] _ _ _ _].
  apply (round_ok _ _ _ _ _ _ _ _ _ Hr) in H. apply H.
Qed.

Lemma produced_seg : forall cf la r inp o y p a u en seg,
  produced cf la r inp o y p a u en seg -> seg_start seg = y_off y /\ seg_end seg = en.
Proof.
  intros cf la r inp o y p a u en seg [_ _ _ _ ->]. rewrite round_seg_start, round_seg_end. auto.
Qed.

Lemma chain_tiles : forall cf la r inp o y segs c, entry r -> chain cf la r inp o y segs c ->
  exists q, tiles (y_off y) segs q /\
    offset q <= List.length inp + offset (y_off y) /\
    (c = true -> offset q = List.length inp + offset (y_off y)) /\
    q = match last_end segs with Some e => e | None => y_off y end.
Proof.
  intros cf la r inp o y segs c Hr H. induction H as [inp o y|o y|inp o y p a u en seg Hp He|inp o y p a u en seg segs c Hp He Hc IH].
  - exists (y_off y). split; [constructor|]. split; [lia|]. split; [discriminate|reflexivity].
  - exists (y_off y). split; [constructor|]. split; [lia|]. split; [reflexivity|reflexivity].
  - pose proof (produced_offset _ _ _ _ _ _ _ _ _ _ _ Hp) as Ho.
    pose proof (produced_eof _ _ _ _ _ _ _ _ _ _ _ Hr Hp He) as Hl.
    destruct (produced_seg _ _ _ _ _ _ _ _ _ _ _ Hp) as [S1 S2]. pose proof (pd_pos _ _ _ _ _ _ _ _ _ _ _ Hp).
    exists en. split; [|split; [lia|split; [lia|unfold last_end; cbn; auto]]].
    rewrite <- S1. constructor; [rewrite S1, S2; lia|]. rewrite S2. constructor.
  - pose proof (produced_offset _ _ _ _ _ _ _ _ _ _ _ Hp) as Ho.
    destruct (produced_seg _ _ _ _ _ _ _ _ _ _ _ Hp) as [S1 S2].
    pose proof (pd_pos _ _ _ _ _ _ _ _ _ _ _ Hp). pose proof (pd_bound _ _ _ _ _ _ _ _ _ _ _ Hp).
    destruct IH as [q [I1 [I2 [I3 I4]]]]. cbn [y_off next_carry] in *. rewrite skipn_length in *.
    exists q. split; [|split; [lia|split; [intros; specialize (I3 H1); lia|]]].
    + rewrite <- S1. constructor; [rewrite S1, S2; lia|]. rewrite S2. exact I1.
    + rewrite I4. unfold last_end. cbn [rev]. destruct (rev segs); cbn [app]; congruence.
Qed.

(** a property of segments shown round by round *)
Lemma chain_forall : forall cf la r (P : segment -> Prop),
  (forall inp o y p a u en seg, produced cf la r inp o y p a u en seg -> P seg) ->
  forall inp o y segs c, chain cf la r inp o y segs c -> Forall P segs.
Proof. intros cf la r P HP inp o y segs c H. induction H; eauto. Qed.

Lemma node_ok_erase : forall e ps t, node_ok e ps t <-> node_ok e ps (erase t).
Proof. intros e ps t. unfold node_ok. rewrite nested_erase, erase_rng. tauto. Qed.

Lemma produced_nodes : forall cf la r inp o y p a u en seg, entry r ->
  produced cf la r inp o y p a u en seg ->
  exists lines, detail cf la inp y p lines a u /\ en = at_byte (y_off y) lines p /\
    Forall (node_ok (x_of la inp y lines p) (at_byte (y_off y) lines)) (forest (s_roots seg)).
Proof.
  intros cf la r inp o y p a u en seg Hr [[lines [H He]] H1 H2 H3 ->].
  pose proof (round_detail _ _ _ _ _ _ _ _ _ Hr H) as D. exists lines. split; [exact D|].
  pose proof (round_ok _ _ _ _ _ _ _ _ _ Hr H) as [_ _ _ _ F5].
  rewrite at_byte_some in He by exact F5. split; [congruence|].
  unfold round_segment. rewrite (proj1 (proj2 (proj2 (make_segment_fields _ _ _ _ _ _)))).
  apply forest_numbered; [apply node_ok_erase|]. apply D.
Qed.

Lemma produced_nested : forall cf la r inp o y p a u en seg, entry r ->
  produced cf la r inp o y p a u en seg ->
  Forall (fun n => nested n /\ inside seg n) (forest (s_roots seg)) /\
  StronglySorted le (map (fun k => offset (r_end (nrng k))) (s_roots seg)).
Proof.
  intros cf la r inp o y p a u en seg Hr Hp.
  destruct (produced_nodes _ _ _ _ _ _ _ _ _ _ _ Hr Hp) as [lines [D [_ H]]].
  pose proof (produced_offset _ _ _ _ _ _ _ _ _ _ _ Hp) as Ho.
  destruct (produced_seg _ _ _ _ _ _ _ _ _ _ _ Hp) as [S1 S2]. split.
  - eapply Forall_impl; [|exact H]. intros n [Hn [b [f [B1 [B2 [B3 B4]]]]]]. split; [exact Hn|].
    unfold inside. rewrite S1, S2, B3, B4, !at_byte_offset. cbn [e_pos x_of] in B2. lia.
  - destruct Hp as [_ _ _ _ ->]. unfold round_segment.
    rewrite (proj1 (proj2 (proj2 (make_segment_fields _ _ _ _ _ _)))).
    pose proof (d_roots _ _ _ _ _ _ _ _ D) as R. revert R.
    generalize (match a_blocks a with b :: _ => b_kids b | [] => [] end). intros ks R.
    pose proof (ordinals_all ks o) as [_ [E _]]. revert E.
    generalize (fst (set_ordinals_all ks o)). intros ks' E.
    assert (F : forall us, map (fun k => offset (r_end (nrng k))) us =
              map (fun k => offset (r_end (nrng k))) (map erase us)).
    { intros us. rewrite map_map. apply map_ext. intros k. rewrite erase_rng. reflexivity. }
    rewrite F, E, <- F. exact R.
Qed.

Lemma chain_ordinals : forall cf la r inp o y segs c, chain cf la r inp o y segs c ->
  map nord (forest (flat_map s_roots segs)) = seq o (List.length (forest (flat_map s_roots segs))) /\
  Forall (fun s => s_nnodes s = List.length (forest (s_roots s))) segs.
Proof.
  intros cf la r inp o y segs c H.
  assert (K : forall inp o y p a u en seg, produced cf la r inp o y p a u en seg ->
     map nord (forest (s_roots seg)) = seq o (List.length (forest (s_roots seg))) /\
     s_nnodes seg = List.length (forest (s_roots seg))).
  { clear. intros inp o y p a u en seg [_ _ _ _ ->]. unfold round_segment.
    generalize (match a_blocks a with b :: _ => b_kids b | [] => [] end). intros ks.
    pose proof (make_segment_fields o (mkrange (y_off y) en) (a_errs a) ks (a_result a) (a_eof a)) as M.
    cbv zeta in M. destruct M as [_ [_ [M3 [M4 _]]]]. rewrite M3, M4.
    pose proof (ordinals_all ks o) as [O1 [_ [O3 O4]]]. rewrite O1, O3, O4. split; [reflexivity|lia]. }
  induction H as [inp o y|o y|inp o y p a u en seg Hp He|inp o y p a u en seg segs c Hp He Hc [I1 I2]].
  - split; [reflexivity|constructor].
  - split; [reflexivity|constructor].
  - destruct (K _ _ _ _ _ _ _ _ Hp) as [K1 K2]. cbn [flat_map]. rewrite app_nil_r. split; auto.
  - destruct (K _ _ _ _ _ _ _ _ Hp) as [K1 K2]. cbn [flat_map]. split; [|auto].
    rewrite forest_app, map_app, app_length, seq_app, K1, I1, K2. reflexivity.
Qed.

(** ** Positions *)

Lemma nth_skipn : forall {X} p (l : list X) i, nth_error (skipn p l) i = nth_error l (p + i).
Proof.
  induction p as [|p IH]; intros l i; [reflexivity|]. destruct l; cbn; [destruct i; reflexivity|apply IH].
Qed.

Lemma bq_ok_skipn : forall p inp, bq_ok inp -> bq_ok (skipn p inp).
Proof.
  intros p inp H i j Hi Hij. rewrite nth_skipn in *. apply (H (p + i)); [exact Hi|lia].
Qed.

Lemma true_shift : forall p0 inp p k x, p <= List.length inp ->
  true_position (walk p0 (firstn p inp)) (skipn p inp) k x -> true_position p0 inp (p + k) x.
Proof.
  intros p0 inp p k x Hp [H1 ->]. rewrite skipn_length in H1. split; [lia|].
  rewrite <- walk_app. f_equal.
  replace (firstn (p + k) inp) with (firstn (List.length (firstn p inp) + k) (firstn p inp ++ skipn p inp))
    by (rewrite firstn_skipn, firstn_length, Nat.min_l by exact Hp; reflexivity).
  symmetry. apply firstn_app_2.
Qed.

Lemma produced_end : forall cf la r inp o y p a u en seg, entry r ->
  produced cf la r inp o y p a u en seg -> bq_ok inp -> quiet y ->
  en = walk (y_off y) (firstn p inp).
Proof.
  intros cf la r inp o y p a u en seg Hr Hp Hbq Hq.
  destruct (produced_nodes _ _ _ _ _ _ _ _ _ _ _ Hr Hp) as [lines [D [-> _]]].
  apply (d_lines _ _ _ _ _ _ _ _ D Hbq Hq). lia.
Qed.

Lemma produced_positions : forall cf la r inp o y p a u en seg, entry r ->
  produced cf la r inp o y p a u en seg -> bq_ok inp -> quiet y ->
  positions_true (y_off y) inp seg.
Proof.
  intros cf la r inp o y p a u en seg Hr Hp Hbq Hq.
  pose proof (produced_end _ _ _ _ _ _ _ _ _ _ _ Hr Hp Hbq Hq) as Hen.
  pose proof (pd_bound _ _ _ _ _ _ _ _ _ _ _ Hp) as Hb.
  destruct (produced_nodes _ _ _ _ _ _ _ _ _ _ _ Hr Hp) as [lines [D [_ H]]].
  destruct (produced_seg _ _ _ _ _ _ _ _ _ _ _ Hp) as [S1 S2].
  assert (T : forall q, q <= p -> exists k, true_position (y_off y) inp k (at_byte (y_off y) lines q)).
  { intros q Hle. exists q. split; [lia|]. apply (d_lines _ _ _ _ _ _ _ _ D Hbq Hq). exact Hle. }
  split; [|split; [|split]].
  - exists 0. rewrite S1. split; [lia|]. reflexivity.
  - exists p. rewrite S2. split; auto.
  - eapply Forall_impl; [|exact H]. intros n [_ [b [f [B1 [B2 [-> ->]]]]]]. cbn [e_pos x_of] in B2.
    split; apply T; lia.
  - destruct (d_errs _ _ _ _ _ _ _ _ D Hbq Hq) as [[_ _ E _ _ _] F].
    destruct Hp as [_ _ _ _ ->]. unfold round_segment.
    rewrite (proj1 (proj2 (make_segment_fields _ _ _ _ _ _))).
    revert E F. generalize (et_errs (c_et u)) (a_errs a). intros es es' E F.
    induction F as [|x x' es es' [F1 _] _ IH]; constructor; inversion E; subst; auto.
    destruct H2 as [q [ls [Q1 [_ [_ [Q2 _]]]]]]. exists q. split; [exact Q1|]. congruence.
Qed.

Lemma positions_shift : forall p0 inp p s, p <= List.length inp ->
  positions_true (walk p0 (firstn p inp)) (skipn p inp) s -> positions_true p0 inp s.
Proof.
  intros p0 inp p s Hp [[k1 H1] [[k2 H2] [H3 H4]]].
  assert (T : forall x, (exists k, true_position (walk p0 (firstn p inp)) (skipn p inp) k x) ->
      exists k, true_position p0 inp k x).
  { intros x [k Hk]. exists (p + k). apply true_shift; auto. }
  split; [apply T; eauto|]. split; [apply T; eauto|]. split.
  - eapply Forall_impl; [|exact H3]. intros n [A B]. auto.
  - eapply Forall_impl; [|exact H4]. intros n. apply T.
Qed.

Lemma chain_positions : forall cf la r inp o y segs c, entry r -> chain cf la r inp o y segs c ->
  bq_ok inp -> quiet y -> Forall (positions_true (y_off y) inp) segs.
Proof.
  intros cf la r inp o y segs c Hr H.
  induction H as [inp o y|o y|inp o y p a u en seg Hp He|inp o y p a u en seg segs c Hp He Hc IH]; intros Hbq Hq.
  - constructor.
  - constructor.
  - constructor; [eapply produced_positions; eauto|constructor].
  - constructor; [eapply produced_positions; eauto|].
    pose proof (produced_end _ _ _ _ _ _ _ _ _ _ _ Hr Hp Hbq Hq) as Hen.
    specialize (IH (bq_ok_skipn _ _ Hbq) (quiet_next _ _ _)). cbn [y_off next_carry] in IH. rewrite Hen in IH.
    eapply Forall_impl; [|exact IH]. intros s. apply positions_shift. apply Hp.
Qed.
