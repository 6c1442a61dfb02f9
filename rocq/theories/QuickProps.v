(** * Whole quick parses *)
From Coq Require Import ZArith.
From Verif Require Import Peg PegWf PegProofs PegEval LineSafe
  QuickModel QuickSpec QuickLex QuickRound QuickProofs.

(** The segments of an input, as a relation: [segmentation only off s segs] *)
Inductive segmentation (only : bool) : position -> bytes -> list qsegment -> Prop :=
| sg_nil : forall off, segmentation only off [] []
| sg_last : forall off s st b e n, s <> [] -> round_spec only s st b e n true ->
    segmentation only off s [qsegment_of off s st b e n true]
| sg_more : forall off s st b e n segs, s <> [] -> round_spec only s st b e n false ->
    segmentation only (walk off (firstn n s)) (skipn n s) segs ->
    segmentation only off s (qsegment_of off s st b e n false :: segs).

(** callback protocol: what the caller sees when [all] are the segments *)
Fixpoint deliver (cb : qcallback) (single : bool) (done all : list qsegment) : Z * list qsegment :=
  match all with
  | [] => (0%Z, done)
  | seg :: rest =>
      let d := done ++ [seg] in
      if (0 <? cb d)%Z then (0%Z, d)
      else if (cb d <? 0)%Z then (cb d, d)
      else if single then (0%Z, d)
      else deliver cb single d rest
  end.

Lemma qloop_spec : forall n cb fl s x, List.length s < n -> x_eof x = false ->
  exists all, segmentation (f_only_statements fl) (x_off x) s all /\
    qloop n cb fl s x =
      let (r, segs) := deliver cb (f_single fl) (x_segs x) all in QRet r segs.
Proof.
  induction n as [|n IH]; intros cb fl s x Hn Hx; [lia|].
  cbn [qloop].
  destruct (qround_effect cb (f_only_statements fl) s x Hx) as [st [b [e [k [eof [HS HR]]]]]].
  rewrite HR. pose proof (round_spec_bounds _ _ _ _ _ _ _ HS) as [A [B [C [D [E F]]]]].
  destruct s as [|c r].
  - exists []. split; [constructor|]. cbn. reflexivity.
  - unfold round_state. cbn [x_result x_segs x_eof].
    set (seg := qsegment_of (x_off x) (c :: r) st b e k eof).
    destruct eof.
    + exists [seg]. split; [apply sg_last; [discriminate|exact HS]|].
      cbn [deliver orb].
      destruct (0 <? cb (x_segs x ++ [seg]))%Z; [reflexivity|].
      destruct (cb (x_segs x ++ [seg]) <? 0)%Z; [reflexivity|].
      destruct (f_single fl); reflexivity.
    + specialize (E eq_refl).
      set (x' := mkqx false (cb (x_segs x ++ [seg])) (qs_next seg) (x_segs x ++ [seg])).
      destruct (IH cb fl (skipn k (c :: r)) x') as [all [H1 H2]].
      { rewrite skipn_length. cbn [List.length] in *. lia. }
      { reflexivity. }
      exists (seg :: all). split; [apply sg_more; [discriminate|exact HS|exact H1]|].
      cbn [deliver orb].
      destruct (0 <? cb (x_segs x ++ [seg]))%Z; [reflexivity|].
      destruct (cb (x_segs x ++ [seg]) <? 0)%Z; [reflexivity|].
      destruct (f_single fl); [reflexivity|]. cbn [x_segs x'] in H2. exact H2.
Qed.

Theorem quick_parse_spec : forall cb fl inp,
  exists all, segmentation (f_only_statements fl) position_zero inp all /\
    quick_parse cb fl inp =
      let (r, segs) := deliver cb (f_single fl) [] all in QRet r segs.
Proof. intros. apply (qloop_spec _ cb fl inp qexec0); auto. Qed.

(** ** The relations of the specification are functional *)
Definition accept : qcallback := fun _ => 0%Z.

Lemma deliver_accept : forall all done, deliver accept false done all = (0%Z, done ++ all).
Proof.
  induction all as [|a all IH]; intros done; cbn; [rewrite app_nil_r; reflexivity|].
  rewrite IH, <- app_assoc. reflexivity.
Qed.

Lemma quick_accept : forall only inp r segs,
  quick_parse accept (mkqf false only) inp = QRet r segs ->
  r = 0%Z /\ segmentation only position_zero inp segs.
Proof.
  intros only inp r segs H. destruct (quick_parse_spec accept (mkqf false only) inp) as [all [H1 H2]].
  rewrite H2, deliver_accept in H. cbn in H. injection H as <- <-. auto.
Qed.

(** the segments do not depend on the callback *)
Lemma quick_segments_total : forall only inp, exists segs,
  quick_parse accept (mkqf false only) inp = QRet 0 segs.
Proof.
  intros only inp. destruct (quick_parse_spec accept (mkqf false only) inp) as [all [H1 H2]].
  rewrite H2, deliver_accept. exists all. reflexivity.
Qed.

Lemma round_spec_det : forall only s st b e n eof st' b' e' n' eof',
  round_spec only s st b e n eof -> round_spec only s st' b' e' n' eof' ->
  st = st' /\ b = b' /\ e = e' /\ n = n' /\ eof = eof'.
Proof.
  intros [] s st b e n eof st' b' e' n' eof' H H'; cbn in H, H'.
  - destruct H as [-> H]. destruct H' as [-> H']. split; [reflexivity|]. eapply statement_round_det; eauto.
  - eapply directive_round_det; eauto.
Qed.

Lemma segmentation_det : forall only off s segs, segmentation only off s segs ->
  forall segs', segmentation only off s segs' -> segs = segs'.
Proof.
  induction 1 as [off|off s st b e n Hs Hr|off s st b e n segs Hs Hr Hm IH]; intros segs' H';
  inversion H'; subst; try contradiction; auto.
  - destruct (round_spec_det _ _ _ _ _ _ _ _ _ _ _ _ Hr H0) as [-> [-> [-> [-> _]]]]. reflexivity.
  - destruct (round_spec_det _ _ _ _ _ _ _ _ _ _ _ _ Hr H0) as [_ [_ [_ [_ E]]]]. discriminate.
  - destruct (round_spec_det _ _ _ _ _ _ _ _ _ _ _ _ Hr H0) as [_ [_ [_ [_ E]]]]. discriminate.
  - destruct (round_spec_det _ _ _ _ _ _ _ _ _ _ _ _ Hr H0) as [-> [-> [-> [-> _]]]].
    f_equal. auto.
Qed.

Lemma quick_deliver : forall only inp all, quick_parse accept (mkqf false only) inp = QRet 0 all ->
  forall cb single, quick_parse cb (mkqf single only) inp =
    let (r, segs) := deliver cb single [] all in QRet r segs.
Proof.
  intros only inp all H cb single. apply quick_accept in H. destruct H as [_ H].
  destruct (quick_parse_spec cb (mkqf single only) inp) as [all' [H1 H2]]. cbn in H1, H2.
  rewrite (segmentation_det _ _ _ _ H _ H1). exact H2.
Qed.

(** ** Global positions *)
Lemma walk_offset : forall w off, offset (walk off w) = offset off + List.length w.
Proof.
  induction w as [|c w IH]; intros off; cbn [walk fold_left List.length]; [lia|].
  change (fold_left step_position w (step_position off c)) with (walk (step_position off c) w).
  rewrite IH. unfold step_position. destruct (beq c NL); cbn; lia.
Qed.

Lemma walk_firstn : forall inp o p, o <= List.length inp ->
  walk (walk position_zero (firstn o inp)) (firstn p (skipn o inp)) = walk position_zero (firstn (o + p) inp).
Proof.
  intros inp o p H. rewrite <- walk_app. f_equal.
  rewrite <- (firstn_skipn o inp) at 3. rewrite firstn_app.
  rewrite firstn_length_le by auto. rewrite firstn_firstn.
  replace (Nat.min (o + p) o) with o by lia. replace (o + p - o) with p by lia. reflexivity.
Qed.

Definition pos_at (inp : bytes) (o : nat) : position := walk position_zero (firstn o inp).

Lemma pos_at_offset : forall inp o, o <= List.length inp -> offset (pos_at inp o) = o.
Proof. intros. unfold pos_at. rewrite walk_offset, firstn_length_le; auto. Qed.

Definition seg_at (inp : bytes) (o : nat) (st : bool) (b e n : nat) (eof : bool) : qsegment :=
  mkqseg st (slice inp (o + b) (o + e)) (pos_at inp (o + b)) (pos_at inp (o + e)) (pos_at inp (o + n)) eof.

Lemma qsegment_of_at : forall inp o st b e n eof, o <= List.length inp ->
  qsegment_of (pos_at inp o) (skipn o inp) st b e n eof = seg_at inp o st b e n eof.
Proof.
  intros. unfold qsegment_of, seg_at, pos_at. rewrite !walk_firstn by auto. f_equal.
  unfold slice. rewrite skipn_add. f_equal. lia.
Qed.

(** The segmentation, with absolute offsets. *)
Inductive seg_from (only : bool) (inp : bytes) : nat -> list qsegment -> Prop :=
| sf_nil : seg_from only inp (List.length inp) []
| sf_last : forall o st b e n, o < List.length inp -> round_spec only (skipn o inp) st b e n true ->
    seg_from only inp o [seg_at inp o st b e n true]
| sf_more : forall o st b e n segs, o < List.length inp -> round_spec only (skipn o inp) st b e n false ->
    seg_from only inp (o + n) segs ->
    seg_from only inp o (seg_at inp o st b e n false :: segs).

Lemma segmentation_from : forall only off s segs, segmentation only off s segs ->
  forall inp o, s = skipn o inp -> off = pos_at inp o -> o <= List.length inp ->
  seg_from only inp o segs.
Proof.
  induction 1 as [off|off s st b e n Hs Hr|off s st b e n segs Hs Hr Hm IH]; intros inp o Es Eo Ho;
    [|subst s off|subst s off].
  - assert (o = List.length inp) as ->; [|constructor].
    apply skipn_nil_length; auto.
  - rewrite qsegment_of_at by auto. apply sf_last; auto.
    destruct (Nat.eq_dec o (List.length inp)) as [->|]; [rewrite skipn_all in Hs; contradiction|lia].
  - rewrite qsegment_of_at by auto.
    pose proof (round_spec_bounds _ _ _ _ _ _ _ Hr) as [_ [_ [Hn _]]]. rewrite skipn_length in Hn.
    apply sf_more; auto.
    + destruct (Nat.eq_dec o (List.length inp)) as [->|]; [rewrite skipn_all in Hs; contradiction|lia].
    + apply IH; [rewrite skipn_add; reflexivity| |lia].
      unfold pos_at. rewrite walk_firstn by auto. reflexivity.
Qed.

Lemma quick_seg_from : forall only inp r segs,
  quick_parse accept (mkqf false only) inp = QRet r segs -> r = 0%Z /\ seg_from only inp 0 segs.
Proof.
  intros only inp r segs H. apply quick_accept in H. destruct H as [-> H]. split; [auto|].
  apply (segmentation_from _ _ _ _ H inp 0); [reflexivity|reflexivity|lia].
Qed.

Lemma seg_from_bounds : forall only inp o st b e n eof, o < List.length inp ->
  round_spec only (skipn o inp) st b e n eof ->
  o <= offset (qs_start (seg_at inp o st b e n eof)) /\
  offset (qs_start (seg_at inp o st b e n eof)) = o + b /\
  offset (qs_end (seg_at inp o st b e n eof)) = o + e /\
  offset (qs_next (seg_at inp o st b e n eof)) = o + n /\
  b <= e /\ e <= n /\ o + n <= List.length inp /\ 1 <= n /\ (eof = true -> o + n = List.length inp).
Proof.
  intros only inp o st b e n eof Ho Hr.
  pose proof (round_spec_bounds _ _ _ _ _ _ _ Hr) as [A [B [C [D [E F]]]]].
  rewrite skipn_length in *. cbn [seg_at qs_start qs_end qs_next].
  rewrite !pos_at_offset by lia. repeat split; try lia.
  - destruct eof; [rewrite D by auto|specialize (E eq_refl)]; lia.
  - intros X. specialize (D X). lia.
Qed.

(** ** Properties of all segments of a parse *)
Lemma seg_from_forall : forall (P : qsegment -> Prop) only inp,
  (forall o st b e n eof, o < List.length inp -> round_spec only (skipn o inp) st b e n eof ->
     P (seg_at inp o st b e n eof)) ->
  forall o segs, seg_from only inp o segs -> Forall P segs.
Proof. intros P only inp H o segs HS. induction HS; constructor; auto. Qed.

Lemma deliver_prefix : forall cb single all done r segs, deliver cb single done all = (r, segs) ->
  exists k, segs = done ++ firstn k all.
Proof.
  intros cb single. induction all as [|a all IH]; intros done r segs H; cbn [deliver] in H.
  - injection H as <- <-. exists 0. rewrite app_nil_r. reflexivity.
  - destruct (0 <? cb (done ++ [a]))%Z; [injection H as <- <-; exists 1; reflexivity|].
    destruct (cb (done ++ [a]) <? 0)%Z; [injection H as <- <-; exists 1; reflexivity|].
    destruct single; [injection H as <- <-; exists 1; reflexivity|].
    destruct (IH _ _ _ H) as [k ->]. exists (S k). rewrite <- app_assoc. reflexivity.
Qed.

Lemma quick_prefix : forall cb single only inp r segs,
  quick_parse cb (mkqf single only) inp = QRet r segs ->
  exists all k, quick_parse accept (mkqf false only) inp = QRet 0 all /\ segs = firstn k all.
Proof.
  intros cb single only inp r segs H. destruct (quick_segments_total only inp) as [all Ha].
  rewrite (quick_deliver _ _ _ Ha) in H. destruct (deliver cb single [] all) as [r' segs'] eqn:E.
  injection H as <- <-. destruct (deliver_prefix _ _ _ _ _ _ E) as [k Hk]. exists all, k. auto.
Qed.

Lemma Forall_firstn : forall (A : Type) (P : A -> Prop) k l, Forall P l -> Forall P (firstn k l).
Proof.
  intros A P k l H. revert k. induction H; intros [|k]; cbn; constructor; auto.
Qed.

Lemma quick_forall : forall (P : qsegment -> Prop) only inp,
  (forall o st b e n eof, o < List.length inp -> round_spec only (skipn o inp) st b e n eof ->
     P (seg_at inp o st b e n eof)) ->
  forall cb single r segs, quick_parse cb (mkqf single only) inp = QRet r segs -> Forall P segs.
Proof.
  intros P only inp H cb single r segs HQ. destruct (quick_prefix _ _ _ _ _ _ HQ) as [all [k [Ha ->]]].
  apply Forall_firstn. apply quick_seg_from in Ha. destruct Ha as [_ Ha].
  eapply seg_from_forall; eauto.
Qed.

(** after the blanks there are none *)
Lemma blanks_again : forall s k, blanks s k -> blanks (skipn k s) 0.
Proof.
  induction 1 as [s|c r k Hc _ IH|r k _ IH|r k _ IH|s k Hc _ IH]; try exact IH.
  - apply bl_stop; auto.
  - rewrite skipn_add. exact IH.
Qed.
