(** * Facts about whole quick parses, in the terms of QuickSpec.v *)
From Coq Require Import ZArith.
From Verif Require Import Peg PegWf PegProofs PegEval LineSafe
  QuickModel QuickSpec QuickLex QuickRound QuickProofs QuickProps.

(** ** The segments are the ones of the specification *)
Lemma nth_error_skipn : forall (A : Type) (l : list A) k, nth_error l k = hd_error (skipn k l).
Proof.
  intros A l k. revert l. induction k; intros [|a l]; cbn; auto.
Qed.

Lemma skipn_skipn_add : forall (A : Type) a b (l : list A), skipn a (skipn b l) = skipn (b + a) l.
Proof.
  intros A a b. revert a. induction b as [|b IH]; intros a l; [reflexivity|].
  destruct l; [rewrite !skipn_nil; reflexivity|]. cbn. apply IH.
Qed.

Lemma statement_round_segment : forall inp o b e n eof, o < List.length inp ->
  statement_round (skipn o inp) b e n eof ->
  statement_segment inp o (seg_at inp o true b e n eof).
Proof.
  intros inp o b e n eof Ho H.
  pose proof (statement_round_bounds _ _ _ _ _ H) as [A [B [C [D E]]]].
  rewrite skipn_length in *.
  unfold statement_segment. cbn [seg_at qs_start qs_end qs_next qs_is_statement qs_eof].
  rewrite !pos_at_offset by lia.
  replace (o + b - o) with b by lia. replace (o + e - (o + b)) with (e - b) by lia.
  replace (o + n - (o + e)) with (n - e) by lia. replace (o + n - o) with n by lia.
  rewrite <- (skipn_skipn_add _ b o inp), <- (skipn_skipn_add _ e o inp).
  split; [reflexivity|]. split; [lia|]. split; [lia|].
  destruct H as [b Hb Htx Hx Ht|b kb j r Hb Htx Hj Hsemi Hx Ht].
  - split; [exact Hb|]. split; [exact Htx|]. split; [|split; [exact Hx|split; [discriminate|intros; contradiction]]].
    left. split; [reflexivity|]. rewrite skipn_all. split; [reflexivity|lia].
  - split; [exact Hb|]. split; [replace (b + kb - b) with kb by lia; exact Htx|].
    split; [|split; [exact Hx|split; auto]].
    right. split; [reflexivity|]. exists j, r. split; [exact Hj|].
    rewrite skipn_skipn_add. split; [exact Hsemi|lia].
Qed.

Lemma nth_nth_error : forall (s : bytes) k d c, nth_error s k = Some c -> nth k s d = c.
Proof. intros s k d c. revert s. induction k; intros [|a s]; cbn; intros; try discriminate; [congruence|auto]. Qed.

Lemma line_end_len_le : forall s t, line_end_len s = Some t -> t <= List.length s.
Proof.
  intros s t E. destruct (line_end_yes _ _ E) as [z [Y _]]. apply yes_length in Y. exact Y.
Qed.

Lemma line_end_len_pos : forall s t, line_end_len s = Some t -> s <> [] -> 1 <= t.
Proof.
  intros s t E Hs. unfold line_end_len in E. destruct (starts_line_comment s) eqn:L.
  - injection E as <-. destruct s; [contradiction|]. apply tok_pos.
  - destruct s as [|c r]; [contradiction|]. destruct (beq c NL); [injection E as <-; lia|].
    destruct (starts_eol (c :: r)); [injection E as <-; lia|discriminate].
Qed.

Lemma nth_error_some_nth : forall (s : bytes) k d, k < List.length s -> nth_error s k = Some (nth k s d).
Proof. intros. apply nth_error_nth'. auto. Qed.

Lemma command_round_segment : forall inp o b e n eof, o < List.length inp ->
  command_round (skipn o inp) b e n eof ->
  command_segment inp o (seg_at inp o false b e n eof).
Proof.
  intros inp o b e n eof Ho H.
  pose proof (command_round_bounds _ _ _ _ _ H) as [A [B [C [D E]]]].
  rewrite skipn_length in *.
  unfold command_segment. cbn [seg_at qs_start qs_end qs_next qs_is_statement qs_eof].
  rewrite !pos_at_offset by lia.
  destruct H as [b r kb j t term Hb Hr Hkb Htx [Hj Htail] Hx].
  assert (Hr' : skipn (S (o + b)) inp = r).
  { replace (S (o + b)) with (o + b + 1) by lia. rewrite <- skipn_skipn_add, <- skipn_skipn_add.
    rewrite Hr. reflexivity. }
  rewrite Hr'. replace (o + b - o) with b by lia.
  replace (o + (b + 1 + kb) - S (o + b)) with kb by lia.
  replace (o + (b + 1 + (kb + j + t)) - (o + (b + 1 + kb))) with (j + t) by lia.
  replace (o + (b + 1 + (kb + j + t)) - S (o + b)) with (kb + j + t) by lia.
  replace (skipn (o + (b + 1 + kb)) inp) with (skipn kb r)
    by (rewrite <- Hr', skipn_skipn_add; f_equal; lia).
  split; [reflexivity|]. split; [lia|]. split; [lia|]. split; [exact Hb|]. split; [exact Htx|].
  split; [|rewrite negb_involutive; exact Hx].
  exists j, t. split; [exact Hj|]. split; [reflexivity|]. rewrite skipn_skipn_add.
  destruct Htail as [[r' [X [-> ->]]]|[X Y]].
  - left. split; [reflexivity|]. split; [reflexivity|]. exists r'. exact X.
  - right. split; [exact X|]. pose proof (line_end_len_le _ _ X) as L.
    split.
    + intros Z. destruct term; [|discriminate]. destruct (proj1 Y eq_refl) as [Y1 Y2].
      pose proof (line_end_len_pos _ _ X Y1). split; [auto|].
      rewrite (nth_error_some_nth _ _ SPC) by lia. f_equal. apply beq_true. exact Y2.
    + intros [Z1 Z2]. rewrite (proj2 Y); [reflexivity|]. split.
      * intros W. rewrite W in L. cbn in L. lia.
      * rewrite (nth_nth_error _ _ _ _ Z2). apply beq_refl.
Qed.

Lemma starts_colon_at : forall inp o b, starts_colon (skipn b (skipn o inp)) = true <->
  nth_error inp (o + b) = Some COLON.
Proof.
  intros. rewrite skipn_skipn_add, nth_error_skipn. destruct (skipn (o + b) inp) as [|c r]; cbn.
  - split; discriminate.
  - split; intros H; [apply beq_true in H; congruence|injection H as ->; apply beq_refl].
Qed.

Lemma seg_from_splits : forall only inp o segs, seg_from only inp o segs -> splits only inp o segs.
Proof.
  assert (K : forall only inp o st b e n eof, o < List.length inp -> round_spec only (skipn o inp) st b e n eof ->
    if only then statement_segment inp o (seg_at inp o st b e n eof)
     else (at_colon inp (seg_at inp o st b e n eof) /\ command_segment inp o (seg_at inp o st b e n eof)) \/
          (~ at_colon inp (seg_at inp o st b e n eof) /\ statement_segment inp o (seg_at inp o st b e n eof))).
  { intros only inp o st b e n eof Ho Hr.
    pose proof (seg_from_bounds _ _ _ _ _ _ _ _ Ho Hr) as [_ [B [_ [_ [_ [_ [L _]]]]]]].
    unfold at_colon. rewrite B. destruct only; cbn in Hr.
    - destruct Hr as [-> Hr]. apply statement_round_segment; auto.
    - destruct Hr as [b e n eof Hb Hc Hr|b e n eof Hb Hc Hr].
      + left. split; [apply starts_colon_at; auto|apply command_round_segment; auto].
      + right. split; [|apply statement_round_segment; auto].
        intros X. apply starts_colon_at in X. congruence. }
  intros only inp o segs H.
  induction H as [|o st b e n Ho Hr|o st b e n segs Ho Hr Hs IH].
  - constructor.
  - pose proof (seg_from_bounds _ _ _ _ _ _ _ _ Ho Hr) as [_ [_ [_ [N [_ [_ [_ [_ X]]]]]]]].
    apply sp_seg; auto.
    + apply K; auto.
    + intros _. rewrite N. auto.
    + rewrite N, X by auto. constructor.
  - pose proof (seg_from_bounds _ _ _ _ _ _ _ _ Ho Hr) as [_ [_ [_ [N _]]]].
    apply sp_seg; auto.
    + apply K; auto.
    + discriminate.
    + rewrite N. exact IH.
Qed.

Lemma extent_pos : forall c r, ~ statement_extent (c :: r) 0.
Proof.
  assert (K : forall s k, statement_extent s k -> s <> [] -> 1 <= k).
  { intros s k H Hs. destruct H as [|r|c r k Hc H]; [contradiction|lia|].
    pose proof (tok_pos c r). lia. }
  intros c r H. apply K in H; [lia|discriminate].
Qed.

Lemma splits_tiles : forall only inp o segs, splits only inp o segs -> tiles o segs (List.length inp).
Proof.
  intros only inp o segs H. induction H as [|o seg segs Ho Hk He Hs IH]; [constructor|].
  assert (o <= offset (qs_start seg) <= offset (qs_end seg) /\ offset (qs_end seg) <= offset (qs_next seg)
    /\ (statement_segment inp o seg \/ o < offset (qs_next seg))) as [A [B C]].
  { destruct only.
    - pose proof Hk as [_ [X [Y _]]]. repeat split; try lia. left. exact Hk.
    - destruct Hk as [[_ Hk]|[_ Hk]]; pose proof Hk as [_ [X [Y _]]]; repeat split; try lia.
      left. exact Hk. }
  apply tl_cons; auto.
  destruct C as [C|C]; [|exact C].
  destruct C as [_ [_ [_ [_ [_ [_ [C _]]]]]]].
  destruct (Nat.eq_dec (offset (qs_next seg)) o) as [E|]; [|lia].
  replace (offset (qs_next seg) - o) with 0 in C by lia.
  destruct (skipn o inp) as [|c r] eqn:S.
  - assert (List.length (skipn o inp) = 0) by (rewrite S; reflexivity). rewrite skipn_length in *. lia.
  - apply extent_pos in C. contradiction.
Qed.

Lemma quick_splits : forall only inp segs,
  quick_parse accept (mkqf false only) inp = QRet 0 segs -> splits only inp 0 segs.
Proof.
  intros only inp segs H. apply quick_seg_from in H. destruct H as [_ H]. apply seg_from_splits. exact H.
Qed.

(** ** C01, C02 *)
Lemma quick_returns : forall cb fl inp, exists r segs, quick_parse cb fl inp = QRet r segs /\
  (r = 0%Z \/ (segs <> [] /\ r = cb segs /\ (r < 0)%Z)).
Proof.
  intros cb [single only] inp. destruct (quick_parse_spec cb (mkqf single only) inp) as [all [_ H]].
  cbn [f_single] in H. rewrite H. clear H.
  assert (K : forall all done, exists r segs,
    (let (r, segs) := deliver cb single done all in QRet r segs) = QRet r segs /\
    (r = 0%Z \/ (segs <> [] /\ r = cb segs /\ (r < 0)%Z))); [|apply K]. clear all.
  induction all as [|a all IH]; intros done; cbn [deliver].
  - exists 0%Z, done. auto.
  - destruct (Z.ltb_spec 0 (cb (done ++ [a]))); [do 2 eexists; split; [reflexivity|auto]|].
    destruct (Z.ltb_spec (cb (done ++ [a])) 0).
    + do 2 eexists. split; [reflexivity|]. right. split; [intros X; apply app_eq_nil in X; destruct X; discriminate|auto].
    + destruct single; [do 2 eexists; split; [reflexivity|auto]|]. apply IH.
Qed.

Lemma quick_rounds : forall cb fl inp n, List.length inp < n ->
  qloop n cb fl inp qexec0 = quick_parse cb fl inp.
Proof.
  intros cb fl inp n Hn. destruct (qloop_spec n cb fl inp qexec0 Hn eq_refl) as [all [A B]].
  destruct (quick_parse_spec cb fl inp) as [all' [A' B']]. rewrite B, B'.
  rewrite (segmentation_det _ _ _ _ A _ A'). reflexivity.
Qed.

(** ** C03 *)
Lemma quick_text : forall cb fl inp r segs, quick_parse cb fl inp = QRet r segs ->
  Forall (fun seg => qs_text seg = slice inp (offset (qs_start seg)) (offset (qs_end seg)) /\
    offset (qs_start seg) <= offset (qs_end seg) /\ offset (qs_end seg) <= offset (qs_next seg) /\
    offset (qs_next seg) <= List.length inp) segs.
Proof.
  intros cb [single only] inp r segs H. revert H. apply quick_forall.
  intros o st b e n eof Ho Hr.
  pose proof (seg_from_bounds _ _ _ _ _ _ _ _ Ho Hr) as [_ [B [E [N [X [Y [Z _]]]]]]].
  rewrite B, E, N. repeat split; try lia. 
Qed.

(** ** C06 *)
Lemma quick_positions : forall cb fl inp r segs, quick_parse cb fl inp = QRet r segs ->
  Forall (fun seg => forall p, p = qs_start seg \/ p = qs_end seg \/ p = qs_next seg ->
    offset p <= List.length inp /\ p = walk position_zero (firstn (offset p) inp)) segs.
Proof.
  intros cb [single only] inp r segs H. revert H. apply quick_forall.
  intros o st b e n eof Ho Hr.
  pose proof (seg_from_bounds _ _ _ _ _ _ _ _ Ho Hr) as [_ [B [E [N [X [Y [Z _]]]]]]].
  assert (K : forall k, k <= List.length inp -> offset (pos_at inp k) <= List.length inp /\
    pos_at inp k = walk position_zero (firstn (offset (pos_at inp k)) inp)).
  { intros k Hk. rewrite pos_at_offset by auto. split; [auto|reflexivity]. }
  intros p [-> | [-> | ->]]; cbn [seg_at qs_start qs_end qs_next]; apply K; lia.
Qed.

(** ** C07 *)
Lemma splits_eof_last : forall only inp o segs, splits only inp o segs ->
  forall pre seg post, segs = pre ++ seg :: post -> qs_eof seg = true ->
  post = [] /\ offset (qs_next seg) = List.length inp.
Proof.
  intros only inp o segs H. induction H as [|o s segs Ho Hk He Hs IH]; intros pre seg post E X.
  - destruct pre; discriminate.
  - destruct pre as [|p pre]; cbn in E; injection E as -> ->.
    + specialize (He X). rewrite He in Hs. split; [|auto]. inversion Hs; [auto|lia].
    + eapply IH; eauto.
Qed.

Lemma quick_eof_last : forall cb fl inp r segs, quick_parse cb fl inp = QRet r segs ->
  forall pre seg post, segs = pre ++ seg :: post -> qs_eof seg = true ->
  post = [] /\ offset (qs_next seg) = List.length inp.
Proof.
  intros cb [single only] inp r segs H pre seg post E X.
  destruct (quick_prefix _ _ _ _ _ _ H) as [all [k [Ha Hk]]].
  apply quick_splits in Ha. rewrite Hk in E.
  rewrite <- (firstn_skipn k all), E, <- app_assoc in Ha. cbn in Ha.
  destruct (splits_eof_last _ _ _ _ Ha _ _ _ eq_refl X) as [P Q].
  split; [|exact Q]. apply app_eq_nil in P. tauto.
Qed.

Lemma splits_forall : forall only inp (P : nat -> qsegment -> Prop),
  (forall o seg, o < List.length inp -> statement_segment inp o seg \/ command_segment inp o seg -> P o seg) ->
  forall o segs, splits only inp o segs -> Forall (fun seg => exists o, P o seg) segs.
Proof.
  intros only inp P H o segs HS. induction HS; constructor; auto.
  exists o. apply H; auto. destruct only; [auto|]. tauto.
Qed.

Lemma quick_splits_forall : forall inp (P : nat -> qsegment -> Prop),
  (forall o seg, o < List.length inp -> statement_segment inp o seg \/ command_segment inp o seg -> P o seg) ->
  forall cb fl r segs, quick_parse cb fl inp = QRet r segs -> Forall (fun seg => exists o, P o seg) segs.
Proof.
  intros inp P H cb [single only] r segs HQ.
  destruct (quick_prefix _ _ _ _ _ _ HQ) as [all [k [Ha ->]]]. apply Forall_firstn.
  apply quick_splits in Ha. eapply splits_forall; eauto.
Qed.

Lemma nth_error_add : forall (A : Type) (l : list A) a b, nth_error (skipn a l) b = nth_error l (a + b).
Proof. intros. rewrite !nth_error_skipn, skipn_skipn_add. reflexivity. Qed.

(** a segment without eof ends in a semicolon or a newline *)
Lemma segment_not_eof : forall inp o seg, statement_segment inp o seg \/ command_segment inp o seg ->
  qs_eof seg = false ->
  nth_error inp (offset (qs_next seg) - 1) = Some SEMI \/
  (qs_is_statement seg = false /\ nth_error inp (offset (qs_next seg) - 1) = Some NL).
Proof.
  intros inp o seg [H|H] X.
  - destruct H as [_ [A [B [_ [_ [[[Y _]|[_ [j [r [Y1 [Y2 Y3]]]]]] _]]]]]]; [congruence|].
    left. rewrite skipn_skipn_add in Y2.
    replace (offset (qs_next seg) - 1) with (offset (qs_end seg) + j) by lia.
    rewrite nth_error_skipn, Y2. reflexivity.
  - destruct H as [S [A [B [_ [_ [[j [t [Y1 [Y2 Y3]]]] _]]]]]].
    rewrite X in Y3. destruct Y3 as [[_ [-> [r Z]]]|[Z W]].
    + left. rewrite skipn_skipn_add in Z.
      replace (offset (qs_next seg) - 1) with (offset (qs_end seg) + j) by lia.
      rewrite nth_error_skipn, Z. reflexivity.
    + right. split; [exact S|]. destruct W as [W _]. specialize (W eq_refl). destruct W as [W1 W2].
      rewrite skipn_skipn_add, nth_error_add in W2.
      replace (offset (qs_next seg) - 1) with (offset (qs_end seg) + j + (t - 1)) by lia. exact W2.
Qed.

Lemma segment_eof : forall inp o seg, statement_segment inp o seg \/ command_segment inp o seg ->
  (qs_eof seg = true <->
   (qs_is_statement seg = true /\ ~ statement_terminated (skipn o inp)) \/
   (qs_is_statement seg = false /\
    command_extent false (skipn (S (offset (qs_start seg))) inp)
       (offset (qs_next seg) - S (offset (qs_start seg))) false)).
Proof.
  intros inp o seg [H|H].
  - destruct H as [S [_ [_ [_ [_ [_ [_ X]]]]]]]. split.
    + intros Y. left. split; [auto|]. intros T. apply X in T. congruence.
    + intros [[_ Y]|[Y _]]; [|congruence]. destruct (qs_eof seg); [auto|]. exfalso. apply Y, X. auto.
  - destruct H as [S [_ [_ [_ [_ [_ X]]]]]]. split.
    + intros Y. right. split; [auto|]. rewrite Y in X. exact X.
    + intros [[Y _]|[_ Y]]; [congruence|].
      destruct (command_extent_det _ _ _ _ X _ _ Y) as [_ Z].
      destruct (qs_eof seg); [auto|discriminate].
Qed.

(** ** C08 *)
Lemma deliver_protocol : forall cb single all done r segs, deliver cb single done all = (r, segs) ->
  exists k, segs = done ++ firstn k all /\ k <= List.length all /\
    (forall i, 1 <= i < k -> cb (done ++ firstn i all) = 0%Z) /\
    (single = true -> k <= 1) /\
    ((1 <= k /\ (0 < cb segs)%Z /\ r = 0%Z) \/
     (1 <= k /\ (cb segs < 0)%Z /\ r = cb segs) \/
     (r = 0%Z /\ (k = 0 \/ cb segs = 0%Z) /\
      k = if single then Nat.min 1 (List.length all) else List.length all)).
Proof.
  intros cb single. induction all as [|a all IH]; intros done r segs H; cbn [deliver] in H.
  - injection H as <- <-. exists 0. cbn. rewrite app_nil_r. repeat split; auto; try lia.
    right. right. split; [auto|]. split; [auto|]. destruct single; reflexivity.
  - destruct (Z.ltb_spec 0 (cb (done ++ [a]))) as [P|P].
    { injection H as <- <-. exists 1. cbn. repeat split; auto; try lia. }
    destruct (Z.ltb_spec (cb (done ++ [a])) 0) as [N|N].
    { injection H as <- <-. exists 1. cbn. repeat split; auto; try lia. }
    destruct single.
    { injection H as <- <-. exists 1. cbn. repeat split; auto; try lia. }
    destruct (IH _ _ _ H) as [k [-> [A [B [C D]]]]]. rewrite <- app_assoc in *. cbn [app] in *.
    exists (S k). cbn [firstn List.length]. split; [reflexivity|]. split; [lia|]. split; [|split; [discriminate|]].
    + intros i Hi. destruct i as [|[|i]]; [lia| |].
      * cbn. lia.
      * specialize (B (S i)). rewrite <- app_assoc in B. apply B. lia.
    + destruct D as [[D1 [D2 D3]]|[[D1 [D2 D3]]|[D1 [D2 D3]]]].
      * left. repeat split; auto; lia.
      * right. left. repeat split; auto; lia.
      * right. right. split; [auto|]. split; [|lia]. right.
        destruct D2 as [->|D2]; [|exact D2]. cbn [firstn]. lia.
Qed.

Lemma quick_protocol : forall cb single only inp r segs,
  quick_parse cb (mkqf single only) inp = QRet r segs ->
  exists all k, quick_parse (fun _ => 0%Z) (mkqf false only) inp = QRet 0 all /\
    segs = firstn k all /\ k <= List.length all /\
    (forall i, 1 <= i < k -> cb (firstn i all) = 0%Z) /\
    (single = true -> k <= 1) /\
    ((1 <= k /\ (0 < cb segs)%Z /\ r = 0%Z) \/
     (1 <= k /\ (cb segs < 0)%Z /\ r = cb segs) \/
     (r = 0%Z /\ (k = 0 \/ cb segs = 0%Z) /\
      k = if single then Nat.min 1 (List.length all) else List.length all)).
Proof.
  intros cb single only inp r segs H. destruct (quick_segments_total only inp) as [all Ha].
  rewrite (quick_deliver _ _ _ Ha) in H. destruct (deliver cb single [] all) as [r' segs'] eqn:E.
  injection H as <- <-. destruct (deliver_protocol _ _ _ _ _ _ E) as [k X].
  exists all, k. split; [exact Ha|]. exact X.
Qed.

Lemma quick_only_statements : forall cb single inp r segs,
  quick_parse cb (mkqf single true) inp = QRet r segs ->
  Forall (fun seg => qs_is_statement seg = true) segs.
Proof.
  intros cb single inp r segs. apply quick_forall. intros o st b e n eof Ho Hr. cbn in *. tauto.
Qed.

(** ** C09 *)
Lemma through_close_mono : forall s t, through_close s <> None -> through_close (s ++ t) <> None.
Proof.
  induction s as [|c s IH]; intros t H; [contradiction H; reflexivity|].
  cbn [through_close app] in *. destruct s as [|d s]; [contradiction H; reflexivity|].
  cbn [app]. destruct (beq c "*" && beq d "/"); [discriminate|].
  specialize (IH t). cbn [app] in IH.
  destruct (through_close (d :: s)); [|contradiction H; reflexivity].
  destruct (through_close (d :: s ++ t)); [discriminate|]. exfalso. apply IH; [discriminate|reflexivity].
Qed.

Lemma leading_blank_mono : forall s t, leading_blank s = true -> leading_blank (s ++ t) = true.
Proof.
  intros s t H. unfold leading_blank in *. rewrite !orb_true_iff in *.
  destruct s as [|c [|d s]]; cbn [app] in *.
  - cbn in H. intuition discriminate.
  - destruct H as [[[H|H]|H]|H]; try discriminate; auto.
    left. left. right. cbn in *. rewrite andb_false_r, orb_false_r in H. rewrite H. reflexivity.
  - destruct H as [[[H|H]|H]|H]; auto. right. cbn [starts_block_comment] in *.
    apply andb_true_iff in H. destruct H as [H1 H2]. rewrite H1. cbn.
    pose proof (through_close_mono s t). destruct (through_close s); [|discriminate].
    destruct (through_close (s ++ t)); [reflexivity|]. exfalso. apply H; [discriminate|reflexivity].
Qed.

Lemma blanks_zero : forall s, blanks s 0 -> leading_blank s = false.
Proof.
  intros s H. inversion H; subst.
  - unfold leading_blank. rewrite H0, H1, H2, H3. reflexivity.
  - exfalso. destruct s; [destruct H1; discriminate|]. pose proof (tok_pos a s). lia.
Qed.

Lemma quick_leading : forall cb fl inp r segs, quick_parse cb fl inp = QRet r segs ->
  Forall (fun seg => leading_blank (qs_text seg) = false) segs.
Proof.
  intros cb [single only] inp r segs. apply quick_forall. intros o st b e n eof Ho Hr.
  cbn [seg_at qs_text].
  assert (blanks (skipn o inp) b) as Hb.
  { destruct only; cbn in Hr.
    - destruct Hr as [_ []]; auto.
    - destruct Hr; auto. }
  apply blanks_again, blanks_zero in Hb. rewrite skipn_skipn_add in Hb.
  destruct (leading_blank (slice inp (o + b) (o + e))) eqn:E; [|reflexivity].
  unfold slice in E. rewrite <- Hb.
  rewrite <- (firstn_skipn (o + e - (o + b)) (skipn (o + b) inp)). symmetry.
  apply leading_blank_mono. exact E.
Qed.

(** ** C10 *)
Lemma walk_translate : forall w p q, 1 <= line q -> 1 <= column q ->
  translate p (walk q w) = walk (translate p q) w.
Proof.
  induction w as [|c w IH]; intros p q H1 H2; [reflexivity|].
  cbn [walk fold_left]. fold (walk (step_position q c) w). rewrite IH.
  - unfold walk. f_equal. unfold step_position, translate.
    destruct (beq c NL); cbn [line column offset].
    + destruct (Nat.eqb_spec (S (line q)) 1); [lia|]. f_equal; lia.
    + destruct (Nat.eqb (line q) 1); f_equal; lia.
  - unfold step_position. destruct (beq c NL); cbn; lia.
  - unfold step_position. destruct (beq c NL); cbn; lia.
Qed.

Lemma translate_zero : forall p, translate p position_zero = p.
Proof. intros [l c o]. unfold translate. cbn. f_equal; lia. Qed.

Lemma walk_pos : forall w q, 1 <= line q -> 1 <= column q -> 1 <= line (walk q w) /\ 1 <= column (walk q w).
Proof.
  induction w as [|c w IH]; intros q H1 H2; cbn; [auto|]. apply IH; unfold step_position; destruct (beq c NL); cbn; lia.
Qed.

Lemma translate_walk : forall p w, translate p (walk position_zero w) = walk p w.
Proof. intros. rewrite walk_translate by (cbn; lia). rewrite translate_zero. reflexivity. Qed.

Lemma segmentation_translate : forall only s off segs, segmentation only off s segs ->
  forall w p, off = walk position_zero w ->
  segmentation only (walk p w) s (map (translate_segment p) segs).
Proof.
  induction 1 as [off|off s st b e n Hs Hr|off s st b e n segs Hs Hr Hm IH]; intros w p ->; cbn [map].
  - constructor.
  - unfold translate_segment, qsegment_of at 1. cbn.
    rewrite <- !walk_app, !translate_walk, !walk_app.
    apply (sg_last only (walk p w) s st b e n Hs Hr).
  - unfold translate_segment at 1. unfold qsegment_of at 1 2 3 4 5 6. cbn.
    rewrite <- !walk_app, !translate_walk, !walk_app.
    apply (sg_more only (walk p w) s st b e n _ Hs Hr).
    rewrite <- walk_app. apply IH. rewrite walk_app. reflexivity.
Qed.

Lemma seg_from_next : forall only inp o segs, seg_from only inp o segs ->
  forall pre seg post, segs = pre ++ seg :: post ->
  qs_next seg = pos_at inp (offset (qs_next seg)) /\ seg_from only inp (offset (qs_next seg)) post.
Proof.
  intros only inp o segs H. induction H as [|o st b e n Ho Hr|o st b e n segs Ho Hr Hs IH];
    intros pre seg post E.
  - destruct pre; discriminate.
  - pose proof (seg_from_bounds _ _ _ _ _ _ _ _ Ho Hr) as [_ [_ [_ [N [_ [_ [_ [_ X]]]]]]]].
    destruct pre as [|x [|y pre]]; try discriminate. cbn in E. injection E as <- <-.
    rewrite N. split; [reflexivity|]. rewrite X by auto. constructor.
  - pose proof (seg_from_bounds _ _ _ _ _ _ _ _ Ho Hr) as [_ [_ [_ [N _]]]].
    destruct pre as [|x pre]; cbn in E; injection E as Ex Ep; subst.
    + rewrite N. split; [reflexivity|]. exact Hs.
    + eapply IH; eauto.
Qed.

Lemma seg_from_segmentation : forall only inp o segs, seg_from only inp o segs ->
  segmentation only (pos_at inp o) (skipn o inp) segs.
Proof.
  intros only inp o segs H. induction H as [|o st b e n Ho Hr|o st b e n segs Ho Hr Hs IH].
  - rewrite skipn_all. constructor.
  - rewrite <- qsegment_of_at by lia. apply sg_last; auto.
    intros X. apply skipn_nil_length in X; lia.
  - rewrite <- qsegment_of_at by lia. apply sg_more; auto.
    + intros X. apply skipn_nil_length in X; lia.
    + unfold pos_at. rewrite walk_firstn by lia. rewrite skipn_skipn_add. exact IH.
Qed.

Lemma quick_restart : forall only inp pre seg post,
  quick_parse accept (mkqf false only) inp = QRet 0 (pre ++ seg :: post) ->
  exists post', quick_parse accept (mkqf false only) (skipn (offset (qs_next seg)) inp) = QRet 0 post' /\
    post = map (translate_segment (qs_next seg)) post'.
Proof.
  intros only inp pre seg post H. apply quick_seg_from in H. destruct H as [_ H].
  destruct (seg_from_next _ _ _ _ H _ _ _ eq_refl) as [N S].
  destruct (quick_segments_total only (skipn (offset (qs_next seg)) inp)) as [post' H'].
  exists post'. split; [exact H'|].
  apply quick_accept in H'. destruct H' as [_ H'].
  apply seg_from_segmentation in S. rewrite <- N in S.
  pose proof (segmentation_translate _ _ _ _ H' [] (qs_next seg) eq_refl) as H2.
  eapply segmentation_det; [exact S|exact H2].
Qed.

(** ** C05: semicolons inside a statement are hidden *)
Lemma extent_boundary : forall s n, statement_extent s n -> forall k, boundary s k -> k < n ->
  nth_error s k = Some SEMI -> n = S k.
Proof.
  induction 1 as [|r|c r n Hc Hx IH]; intros k Hb Hk Hs; [lia|lia|].
  inversion Hb; subst.
  - cbn in Hs. congruence.
  - f_equal. destruct k0 as [|k0].
    + rewrite <- nth_error_add in Hs. specialize (IH 0 ltac:(constructor)).
      destruct n; [lia|]. rewrite (IH ltac:(lia) Hs). lia.
    + rewrite <- nth_error_add in Hs. rewrite (IH (S k0) ltac:(auto) ltac:(lia) Hs). lia.
Qed.

(** ** trailing blanks of terminated statements *)
Lemma semi_after_blanks_cons : forall c r, beq c SPC || beq c TAB || beq c NL = true ->
  semi_after_blanks r -> semi_after_blanks (c :: r).
Proof.
  intros c r H [j [r' [Hb Hr]]]. exists (S j), r'. split; [|exact Hr].
  destruct (starts_hspace (c :: r)) eqn:E; [apply bl_space; auto|].
  cbn in E. rewrite E in H. cbn in H. apply beq_true in H. subst. apply bl_nl. auto.
Qed.

Definition sptab (c : ascii) : bool := beq c SPC || beq c TAB.

Lemma through_quote_end : forall q n s, List.length s <= n -> through_quote q s < List.length s ->
  exists k, through_quote q s = S k /\ nth_error s k = Some q.
Proof.
  intros q. induction n as [|n IH]; intros [|c r] H L; cbn [List.length] in H; try lia;
    [cbn in L; lia|cbn in L; lia|].
  - cbn [through_quote] in *. destruct (beq c q) eqn:E.
    + apply beq_true in E. subst. exists 0. auto.
    + destruct r as [|d r']; [cbn in L; lia|].
      destruct (beq c BSL && in_class escapes d).
      * cbn [List.length] in *. destruct (IH r') as [k [A B]]; [lia|lia|].
        exists (S (S k)). split; [lia|exact B].
      * cbn [List.length] in *. destruct (IH (d :: r')) as [k [A B]]; [cbn; lia|cbn [List.length]; lia|].
        exists (S k). split; [lia|exact B].
Qed.

Lemma through_nl_end : forall s, through_nl s < List.length s ->
  exists k, through_nl s = S k /\ nth_error s k = Some NL.
Proof.
  induction s as [|c s IH]; intros L; cbn in L; [lia|]. cbn. destruct (beq c NL) eqn:E.
  - apply beq_true in E. subst. exists 0. auto.
  - destruct IH as [k [A B]]; [lia|]. exists (S k). split; [lia|exact B].
Qed.

Lemma through_close_end : forall s n, through_close s = Some n ->
  exists k, n = S k /\ nth_error s k = Some "/"%char.
Proof.
  induction s as [|c s IH]; intros n H; [discriminate|]. cbn [through_close] in H.
  destruct s as [|d s]; [discriminate|].
  destruct (beq c "*" && beq d "/") eqn:E.
  - injection H as <-. apply andb_true_iff in E. destruct E as [_ E]. apply beq_true in E. subst d.
    exists 1. auto.
  - destruct (through_close (d :: s)) as [m|]; [|discriminate]. injection H as <-.
    destruct (IH m eq_refl) as [k [-> B]]. exists (S k). auto.
Qed.

Lemma tok_end : forall c r, tok (c :: r) < List.length (c :: r) ->
  exists k x, tok (c :: r) = S k /\ nth_error (c :: r) k = Some x /\ (sptab x = true -> k = 0).
Proof.
  intros c r L. unfold tok in *. destruct (is_quote c) eqn:Q.
  - destruct (through_quote_end c _ r (le_n _)) as [k [A B]]; [cbn in L; lia|].
    rewrite A. exists (S k), c. split; [auto|]. split; [exact B|].
    intros X. exfalso. unfold is_quote in Q. unfold sptab in X.
    apply orb_true_iff in Q. apply orb_true_iff in X.
    destruct Q as [Q|Q]; apply beq_true in Q; subst c; destruct X; discriminate.
  - destruct r as [|d r']; [cbn in L; lia|].
    destruct (beq c "/" && beq d "/") eqn:E1.
    { destruct (through_nl_end r') as [k [A B]]; [cbn in L; lia|]. rewrite A.
      exists (S (S k)), NL. split; [auto|]. split; [exact B|discriminate]. }
    destruct (beq c "/" && beq d "*") eqn:E2.
    { destruct (through_close r') as [n|] eqn:T; [|lia].
      destruct (through_close_end _ _ T) as [k [-> B]].
      exists (S (S k)), "/"%char. split; [auto|]. split; [exact B|discriminate]. }
    destruct (beq c BSL && in_class escapes d) eqn:E3.
    { exists 1, d. split; [auto|]. split; [reflexivity|]. intros X. exfalso.
      apply andb_true_iff in E3. destruct E3 as [_ E3]. unfold sptab in X. apply orb_true_iff in X.
      destruct X as [X|X]; apply beq_true in X; subst d; discriminate. }
    exists 0, c. auto.
Qed.

Lemma text_end : forall s k, statement_text s k -> semi_after_blanks (skipn k s) ->
  forall i x, k = S i -> nth_error s i = Some x -> sptab x = false.
Proof.
  induction 1 as [|s H1 H2 H3|c r k Hs Htx IH]; intros HS i x Ei Hx; try discriminate.
  assert (L : tok (c :: r) < List.length (c :: r)).
  { destruct (Nat.lt_ge_cases (tok (c :: r)) (List.length (c :: r))) as [L|L]; [exact L|].
    rewrite skipn_all2 in HS by lia. destruct HS as [j [r' [A B]]]. rewrite skipn_nil in B. discriminate. }
  destruct k as [|k].
  - destruct (tok_end _ _ L) as [k0 [y [A [B C]]]].
    rewrite Nat.add_0_r in *. rewrite A in *. injection Ei as <-. rewrite Hx in B. injection B as <-.
    destruct (sptab x) eqn:X; [|reflexivity]. rewrite (C eq_refl) in *. cbn in Hx. injection Hx as <-.
    cbn [skipn] in HS. exfalso.
    assert (semi_after_blanks (c :: r)).
    { apply semi_after_blanks_cons; [|exact HS]. unfold sptab in X. rewrite X. reflexivity. }
    assert (N : beq c "/" = false).
    { unfold sptab in X. apply orb_true_iff in X. destruct X as [X|X]; apply beq_true in X; subst c; reflexivity. }
    destruct Hs as [Hs|[Hs|Hs]]; [| |contradiction]; destruct r;
      cbn [starts_line_comment starts_block_comment] in Hs; try discriminate; rewrite N in Hs; discriminate.
  - apply (IH ltac:(rewrite skipn_skipn_add; exact HS) k x eq_refl).
    rewrite nth_error_add. rewrite <- Hx. f_equal. lia.
Qed.

Lemma nth_error_firstn_lt : forall (A : Type) (l : list A) n k, k < n -> nth_error (firstn n l) k = nth_error l k.
Proof.
  induction l as [|a l IH]; intros [|n] [|k] H; cbn; auto; try lia. apply IH. lia.
Qed.

Lemma rev_hd_last : forall (s : bytes) c l, rev s = c :: l -> nth_error s (List.length s - 1) = Some c.
Proof.
  intros s c l H. rewrite <- (rev_involutive s), H. cbn [rev].
  rewrite app_length, rev_length. cbn [List.length].
  rewrite nth_error_app2 by (rewrite rev_length; lia). rewrite rev_length.
  replace (List.length l + 1 - 1 - List.length l) with 0 by lia. reflexivity.
Qed.

Lemma segment_trailing : forall inp o seg, statement_segment inp o seg -> qs_eof seg = false ->
  qs_text seg = slice inp (offset (qs_start seg)) (offset (qs_end seg)) ->
  forall c l, rev (qs_text seg) = c :: l -> sptab c = false.
Proof.
  intros inp o seg [_ [A [B [_ [T [M _]]]]]] E Htext c l Hc.
  apply rev_hd_last in Hc. rewrite Htext in Hc. unfold slice in Hc.
  rewrite firstn_length, skipn_length in Hc.
  set (b := offset (qs_start seg)) in *. set (e := offset (qs_end seg)) in *.
  replace (Nat.min (e - b) (List.length inp - b)) with (e - b) in Hc by lia.
  destruct (e - b) as [|i] eqn:D; [cbn in Hc; discriminate|].
  rewrite nth_error_firstn_lt in Hc by lia. replace (S i - 1) with i in Hc by lia.
  destruct M as [[M _]|[_ [j [r [M1 [M2 _]]]]]]; [congruence|].
  eapply text_end; [exact T| |reflexivity|exact Hc].
  rewrite skipn_skipn_add. replace (b + S i) with e by lia. exists j, r. auto.
Qed.

Lemma splits_head : forall inp o seg segs, splits true inp o (seg :: segs) -> statement_segment inp o seg.
Proof. intros inp o seg segs H. inversion H; subst. auto. Qed.
