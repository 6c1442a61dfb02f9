(** * Quick parser: termination, positions, and the effect of a round *)
From Coq Require Import ZArith.
From Verif Require Import Peg PegWf PegProofs PegEval LineSafe
  QuickModel QuickSpec QuickLex QuickRound.

(** ** Tables for the static analyses *)
Definition all_qrules : list qrule :=
  [Qdirective; Qclient_command; Qcommand_body; Qstatement; Qstatement_body;
   Qquoted; Qsingle_quoted; Qdouble_quoted; Qescaped_char; Qsp; Qhsp; Qline_end;
   Qcomment; Qline_comment; Qblock_comment; Qunclosed_block_comment;
   QWS; QHWS; QEOL; QEOF; Qline_start].

Lemma all_qrules_complete : forall r, In r all_qrules.
Proof. destruct r; cbn; tauto. Qed.

Definition qnl (r : qrule) : bool :=
  match r with
  | Qdirective | Qcommand_body | Qstatement | Qstatement_body
  | Qsp | Qhsp | Qline_end | QEOF | Qline_start => true
  | _ => false
  end.

Definition qrk (r : qrule) : nat :=
  match r with
  | Qline_start | QEOF | QHWS | Qescaped_char => 0
  | QEOL => 1
  | QWS | Qline_comment | Qblock_comment | Qunclosed_block_comment
  | Qsingle_quoted | Qdouble_quoted => 2
  | Qcomment | Qquoted | Qhsp | Qline_end => 3
  | Qsp => 4
  | Qcommand_body | Qstatement_body => 5
  | Qclient_command | Qstatement => 6
  | Qdirective => 7
  end.

Definition qkmax : nat := 8.
Definition qm : nat := 31.

Lemma qwf_all : forallb (wf_rule QG qnl qrk qkmax qm) all_qrules = true.
Proof. vm_compute. reflexivity. Qed.

Lemma qwf : forall r, wf_rule QG qnl qrk qkmax qm r = true.
Proof. intros r. pose proof qwf_all as H. rewrite forallb_forall in H. apply H, all_qrules_complete. Qed.

Lemma qnl_ok : forall r, nullable qnl (QG r) = true -> qnl r = true.
Proof.
  intros r H. pose proof (qwf r) as W. unfold wf_rule in W.
  rewrite !andb_true_iff in W. destruct W as [[[W _] _] _]. rewrite H in W. exact W.
Qed.

Lemma get_of_len : forall inp p, get_of inp p <> None <-> p < List.length inp.
Proof. intros inp p. apply nth_error_Some. Qed.

Lemma qrun_terminates : forall inp r u, qrun (qfuel inp) inp (PRule r) (mkst 0 [] u) <> RFuel.
Proof.
  intros inp r u. unfold qrun.
  apply rule_terminates with (nl := qnl) (rk := qrk) (kmax := qkmax) (m := qm) (len := List.length inp).
  - apply qnl_ok.
  - intros r0. pose proof (qwf r0) as W. unfold wf_rule in W. rewrite !andb_true_iff in W. apply W.
  - intros r0. pose proof (qwf r0) as W. unfold wf_rule in W. rewrite !andb_true_iff in W.
    apply Nat.ltb_lt. apply W.
  - intros r0. pose proof (qwf r0) as W. unfold wf_rule in W. rewrite !andb_true_iff in W.
    apply Nat.leb_le. apply W.
  - apply get_of_len.
  - cbn; lia.
  - unfold rule_fuel, fuel_per_byte, qfuel, qkmax, qm. lia.
Qed.

(** ** Line starts *)
Definition qiseol (r : qrule) : bool := match r with QEOL => true | _ => false end.
Definition qisls (r : qrule) : bool := match r with Qline_start => true | _ => false end.
Definition qisline (q : qpred) : bool := match q with MLineStart => true | _ => false end.
Definition qabsent (c : ascii) : bool := false.

Definition qT (r : qrule) : bool * bool :=
  match r with
  | QEOL | QWS => (false, true)
  | Qline_end | Qhsp => (false, true)
  | Qsp => (true, true)
  | Qstatement | Qdirective | Qclient_command => (false, false)
  | Qcommand_body => (false, true)
  | Qstatement_body => (false, true)
  | _ => (false, false)
  end.

Lemma qnls_all : forallb (fun r => qiseol r || qisls r ||
    nls_rule qnl qT qiseol qisline qabsent QG r) all_qrules = true.
Proof. vm_compute. reflexivity. Qed.

Lemma qnls_sound : forall n r inp s s',
  LI (get_of inp) (pos s) (q_lines (user s)) ->
  r <> Qline_start ->
  run QG (get_of inp) qprun n (PRule r) s = ROk s' ->
  LI (get_of inp) (pos s') (q_lines (user s')).
Proof.
  intros n r inp s s' HL Hr E.
  assert (HH : HI (get_of inp) false (pos s) (q_lines (user s))) by (split; [exact HL|discriminate]).
  pose proof (nls_sound QG (get_of inp) qprun qnl qnl_ok qT qiseol qisline qabsent q_lines
    Qline_start MLineStart) as S.
  specialize (S ltac:(intros [] H; try discriminate; reflexivity)).
  specialize (S eq_refl).
  specialize (S ltac:(intros p c u; eexists; split; [reflexivity|reflexivity])).
  specialize (S ltac:(intros [] p c u b u' l H1 H2; cbn in *; try discriminate; injection H2 as <- <- <-; reflexivity)).
  assert (TOK : forall r, qiseol r = false -> r <> Qline_start ->
    nls_rule qnl qT qiseol qisline qabsent QG r = true).
  { intros r0 H1 H2. pose proof qnls_all as A. rewrite forallb_forall in A.
    specialize (A r0 (all_qrules_complete r0)). rewrite H1 in A.
    destruct (qisls r0) eqn:X; [destruct r0; try discriminate; contradiction|]. exact A. }
  specialize (S TOK qisls).
  specialize (S ltac:(intros r0; split; [destruct r0; cbn; intros; try discriminate; reflexivity|intros ->; reflexivity])).
  specialize (S ltac:(intros r0 Hx; destruct r0; try discriminate; vm_compute; reflexivity)).
  specialize (S ltac:(reflexivity)).
  destruct (qiseol r) eqn:He.
  - specialize (S n (PRule r) false false true s).
    cbn [nls] in S. rewrite He in S. specialize (S eq_refl).
    specialize (S ltac:(destruct r; try discriminate; reflexivity)).
    specialize (S HH). rewrite E in S. destruct S as [[S _] _]. exact S.
  - specialize (S n (PRule r) false (fst (qT r)) (snd (qT r)) s).
    cbn [nls] in S. rewrite He in S. specialize (S eq_refl).
    specialize (S ltac:(destruct r; try reflexivity; contradiction)).
    specialize (S HH). rewrite E in S. destruct S as [[S _] _]. exact S.
Qed.

(** *** [input_position] over a good line table is [walk] *)
Lemma walk_app : forall off a b, walk off (a ++ b) = walk (walk off a) b.
Proof. intros. unfold walk. apply fold_left_app. Qed.

Lemma firstn_S : forall (inp : bytes) p c, nth_error inp p = Some c ->
  firstn (S p) inp = firstn p inp ++ [c].
Proof.
  induction inp as [|a inp IH]; intros p c H; [destruct p; discriminate|].
  destruct p; cbn in *; [congruence|]. f_equal. auto.
Qed.

Lemma find_line_top : forall get p b, p <= b ->
  find_line (rev (starts get b)) p <> None.
Proof.
  intros get p b H. rewrite find_line_starts by auto. clear b H.
  destruct (rev (starts get p)) as [|t l] eqn:E.
  - apply (f_equal (@rev nat)) in E. rewrite rev_involutive in E. change (rev []) with (@nil nat) in E.
    exfalso. exact (rev_starts_nonempty _ _ E).
  - cbn [find_line]. assert (In t (starts get p)) as Hin by (apply in_rev; rewrite E; left; auto).
    apply starts_in in Hin. destruct (Nat.ltb_spec p t); [lia|discriminate].
Qed.

Lemma find_line_le : forall l p d t, find_line l p = Some (d, t) -> t <= p.
Proof.
  induction l as [|x l IH]; intros p d t H; [discriminate|]. cbn [find_line] in H.
  destruct (Nat.ltb_spec p x); [eauto|]. injection H as _ <-. auto.
Qed.

Lemma position_walk : forall inp off p, p <= List.length inp ->
  input_position off (rev (starts (get_of inp) p)) p = Some (walk off (firstn p inp)).
Proof.
  intros inp off. induction p as [|p IH]; intros Hp.
  - destruct off. reflexivity.
  - specialize (IH ltac:(lia)).
    destruct (nth_error inp p) as [c|] eqn:Hc; [|apply nth_error_None in Hc; lia].
    rewrite (firstn_S _ _ _ Hc), walk_app. cbn [walk fold_left].
    rewrite starts_S. unfold is_nl, get_of at 2. rewrite Hc.
    unfold input_position in *.
    destruct (find_line (rev (starts (get_of inp) p)) p) as [[d t]|] eqn:Hf; [|discriminate].
    pose proof (find_line_le _ _ _ _ Hf) as Htp.
    injection IH as IH. rewrite <- IH. unfold step_position. cbn [line column offset].
    assert (Hd : rev (starts (get_of inp) p) <> [] /\ d = List.length (rev (starts (get_of inp) p)) /\ hd 0 (rev (starts (get_of inp) p)) = t).
    { destruct (rev (starts (get_of inp) p)) as [|x l] eqn:E; [discriminate|].
      split; [discriminate|]. cbn [find_line] in Hf.
      assert (In x (starts (get_of inp) p)) as Hin by (apply in_rev; rewrite E; left; auto).
      apply starts_in in Hin. destruct (Nat.ltb_spec p x); [lia|]. injection Hf as <- <-. auto. }
    destruct Hd as [Hne [Hd1 Hd2]].
    assert (1 <= d). { destruct (rev (starts (get_of inp) p)); [contradiction|]. subst d. cbn. lia. }
    destruct (beq c NL) eqn:Hnl.
    + rewrite rev_app_distr. cbn [rev app find_line].
      rewrite Nat.ltb_irrefl. cbn [List.length]. rewrite <- Hd1.
      destruct (Nat.eqb_spec (S d) 1); [lia|]. f_equal. f_equal; lia.
    + rewrite app_nil_r.
      assert (find_line (rev (starts (get_of inp) p)) (S p) = Some (d, t)) as ->.
      { destruct (rev (starts (get_of inp) p)) as [|x l] eqn:E; [discriminate|].
        cbn [hd] in Hd2. subst x. cbn [find_line]. destruct (Nat.ltb_spec (S p) t); [lia|]. congruence. }
      f_equal. f_equal; lia.
Qed.

Lemma position_LI : forall inp off l q p, LI (get_of inp) q l -> p <= q -> p <= List.length inp ->
  input_position off l p = Some (walk off (firstn p inp)).
Proof.
  intros inp off l q p [b [Hb ->]] Hp Hlen.
  rewrite <- position_walk by auto. unfold input_position.
  rewrite find_line_starts by lia. reflexivity.
Qed.

(** ** The effect of one round *)
Definition round_spec (only : bool) (s : bytes) (st : bool) (b e n : nat) (eof : bool) : Prop :=
  if only then st = true /\ statement_round s b e n eof else directive_round s st b e n eof.

Definition qsegment_of (off : position) (inp : bytes) (st : bool) (b e n : nat) (eof : bool) : qsegment :=
  mkqseg st (slice inp b e) (walk off (firstn b inp)) (walk off (firstn e inp))
         (walk off (firstn n inp)) eof.

Lemma statement_round_bounds : forall s b e n eof, statement_round s b e n eof ->
  b <= e /\ e <= n /\ n <= List.length s /\ (eof = true -> n = List.length s) /\ (eof = false -> 1 <= n).
Proof.
  intros s b e n eof H. destruct H as [b Hb Htx Hx Ht|b kb j r Hb Htx Hj Hsemi Hx Ht].
  - destruct (sp_yes s b Hb) as [z [Y _]]. apply yes_length in Y. repeat split; auto; lia || discriminate.
  - assert (List.length (skipn (b + kb + j) s) > 0) by (rewrite Hsemi; cbn; lia).
    rewrite skipn_length in *. repeat split; try lia; discriminate.
Qed.

Lemma command_round_bounds : forall s b e n eof, command_round s b e n eof ->
  b <= e /\ e <= n /\ n <= List.length s /\ (eof = true -> n = List.length s) /\ 1 <= e.
Proof.
  intros s b e n eof H. inversion H; subst.
  assert (List.length (skipn b s) = S (List.length r)) as HL by (rewrite H1; reflexivity).
  rewrite skipn_length in HL.
  destruct H4 as [Hj Ht].
  pose proof (yes_length _ _ _ _ (hsp_yes _ _ Hj)) as Lj. rewrite skipn_length in Lj.
  assert (kb + j + t <= List.length r /\ (term = false -> kb + j + t = List.length r)) as [B1 B2].
  { destruct Ht as [[r' [E [-> ->]]]|[E Ht]].
    - assert (List.length (skipn (kb + j) r) > 0) by (rewrite E; cbn; lia).
      rewrite skipn_length in *. split; [lia|discriminate].
    - destruct (line_end_yes _ _ E) as [z [Y [Z1 Z2]]]. apply yes_length in Y. rewrite skipn_length in *.
      split; [lia|]. intros ->. destruct z; [rewrite Z2 by auto; lia|].
      exfalso. assert (false = true); [|discriminate]. apply Z1.
      destruct (skipn (kb + j) r) as [|x y] eqn:F; [auto|]. right. split; [discriminate|].
      destruct (beq (nth (t - 1) (x :: y) SPC) NL) eqn:F'; [|auto].
      assert (false = true); [|discriminate]. apply Ht. split; [discriminate|auto]. }
  repeat split; try lia. intros E. destruct term; [discriminate|]. rewrite B2 by auto. lia.
Qed.

Lemma round_spec_bounds : forall only s st b e n eof, round_spec only s st b e n eof ->
  b <= e /\ e <= n /\ n <= List.length s /\ (eof = true -> n = List.length s) /\
  (eof = false -> 1 <= n) /\ (e = 0 -> eof = true -> s = []).
Proof.
  intros only s st b e n eof H.
  assert (S : statement_round s b e n eof -> e = 0 -> eof = true -> s = []).
  { intros X E1 E2. inversion X; subst; [|discriminate]. destruct s; [auto|discriminate]. }
  assert (C : forall b e n eof, statement_round s b e n eof ->
    b <= e /\ e <= n /\ n <= List.length s /\ (eof = true -> n = List.length s) /\ (eof = false -> 1 <= n)).
  { intros. eapply statement_round_bounds; eauto. }
  destruct only; cbn in H.
  - destruct H as [_ H]. destruct (C _ _ _ _ H) as [A1 [A2 [A3 [A4 A5]]]]. repeat split; auto.
  - inversion H; subst.
    + destruct (command_round_bounds _ _ _ _ _ H2) as [A1 [A2 [A3 [A4 A5]]]].
      repeat split; auto; try lia.
    + destruct (C _ _ _ _ H2) as [A1 [A2 [A3 [A4 A5]]]]. repeat split; auto.
Qed.

Lemma qdone_eofs : forall cb inp p u ts l x, Forall iseof ts ->
  qdone cb inp p u (ts ++ l) x =
  qdone cb inp p u l (match ts with [] => x | _ => mkqx true (x_result x) (x_off x) (x_segs x) end).
Proof.
  intros cb inp p u ts. induction ts as [|[a m] ts IH]; intros l x F; [reflexivity|].
  inversion F; subst. unfold iseof in H1. cbn in H1. subst a. cbn [app qdone qstep].
  rewrite IH by auto. destruct ts; reflexivity.
Qed.

(** the state after a round that matched with these extents *)
Definition round_state (cb : qcallback) (inp : bytes) (x : qexec)
    (st : bool) (b e n : nat) (eof : bool) : qexec :=
  match inp with
  | [] => mkqx true 0%Z (x_off x) (x_segs x)
  | _ =>
      let seg := qsegment_of (x_off x) inp st b e n eof in
      mkqx eof (cb (x_segs x ++ [seg])) (qs_next seg) (x_segs x ++ [seg])
  end.

Lemma round_spec_nil : forall only st b e n eof, round_spec only [] st b e n eof ->
  e = 0 /\ n = 0 /\ eof = true.
Proof.
  intros only st b e n eof H. destruct (round_spec_bounds _ _ _ _ _ _ _ H) as [A [B [C [D [E F]]]]].
  cbn in *. repeat split; try lia. destruct eof; auto. specialize (E eq_refl). lia.
Qed.

Theorem qround_effect : forall cb only inp x, x_eof x = false ->
  exists st b e n eof, round_spec only inp st b e n eof /\
    qround cb (if only then Qstatement else Qdirective) inp x =
    RoundOk n (round_state cb inp x st b e n eof).
Proof.
  intros cb only inp x Hx.
  assert (exists st b e n eof, round_spec only inp st b e n eof /\
    round_ok (if only then Qstatement else Qdirective) inp st b e n eof) as [st [b [e [n [eof [HS HR]]]]]].
  { destruct only.
    - destruct (statement_round_ok inp) as [b [e [n [eof [A1 A2]]]]]. exists true, b, e, n, eof. split; [split; auto|auto].
    - destruct (directive_round_ok inp) as [st [b [e [n [eof [A1 A2]]]]]]. exists st, b, e, n, eof. auto. }
  exists st, b, e, n, eof. split; [exact HS|].
  pose proof (round_spec_bounds _ _ _ _ _ _ _ HS) as [A [B [C [D [E F]]]]].
  destruct (HR 0 0 [0]) as [l' [ts [m [Ev [Fo Hts]]]]].
  pose proof (qrun_terminates inp (if only then Qstatement else Qdirective) quser0) as T.
  unfold qround, qst0, quser0 in *. revert T. generalize (qfuel inp) as N. intros N T.
  assert (qrun N inp (PRule (if only then Qstatement else Qdirective)) (mkst 0 [] (mkqu 0 0 [0])) =
     ROk (mkst n ((ASegment st, m) :: ts) (mkqu b e l'))) as Hrun.
  { unfold qrun in *. eapply ev_run; eauto. }
  rewrite Hrun. cbn [pos user thunks rev].
  assert (LI (get_of inp) n l') as HLI.
  { unfold qrun in Hrun. apply qnls_sound in Hrun.
    - exact Hrun.
    - exists 0. split; [cbn; lia|reflexivity].
    - destruct only; discriminate. }
  rewrite qdone_eofs by (apply Forall_rev; auto).
  set (x1 := match rev ts with [] => x | _ => mkqx true (x_result x) (x_off x) (x_segs x) end).
  assert (x_eof x1 = eof /\ x_off x1 = x_off x /\ x_segs x1 = x_segs x) as [X1 [X2 X3]].
  { unfold x1. destruct (rev ts) as [|a ts'] eqn:Hr.
    - apply (f_equal (@rev _)) in Hr. rewrite rev_involutive in Hr. cbn in Hr. subst ts.
      repeat split; auto. destruct eof; auto. exfalso. apply (proj1 Hts eq_refl). reflexivity.
    - cbn. repeat split; auto. symmetry. apply Hts. intros ->. discriminate. }
  cbn [qdone qstep segment]. unfold segment. cbn [q_end q_begin q_lines]. rewrite X1.
  unfold round_state. destruct inp as [|c r].
  - destruct (round_spec_nil _ _ _ _ _ _ HS) as [-> [-> ->]]. cbn [Nat.eqb andb].
    rewrite X2, X3. reflexivity.
  - destruct (Nat.eqb e 0 && eof) eqn:Hskip.
    { exfalso. apply andb_true_iff in Hskip. destruct Hskip as [H1 H2]. apply Nat.eqb_eq in H1.
      specialize (F H1 H2). discriminate. }
    rewrite !(position_LI (c :: r) _ l' n) by (auto; lia).
    destruct (Nat.ltb_spec e b); [lia|]. rewrite X2, X3. reflexivity.
Qed.
