(** * Line starts and noted errors are true positions

    Holds for inputs in which no newline follows a backquote: a backquoted name
    may contain newlines that are not recorded as line starts (parser.leg:857-861). *)
From Coq Require Import List Bool Arith Lia Sorted.
From Verif Require Import Peg PegWf PegProofs PegMode LineSafe LineLevels QuickModel QuickSpec
  QuickProofs QuickProps CypherSyntax CypherGrammar OperModel ErrModel CypherMatch CypherTables
  CypherLineTables CypherRun.
Import ListNotations.

Definition BQ : ascii := "`"%char.

(** no newline after a backquote *)
Definition bq_ok (inp : bytes) : Prop :=
  forall p q, nth_error inp p = Some BQ -> p < q -> nth_error inp q <> Some NL.

Definition byte_or_nul (c : option ascii) : ascii := match c with Some b => b | None => NUL end.

(** an error as reported: at a position of the input, with the message for the
    byte there and a non-empty list of distinct labels *)
Definition err_ok (col : coloring) (off : position) (inp : bytes) (e : perror) : Prop :=
  exists q ls, q <= List.length inp /\ ls <> [] /\ NoDup ls /\
    pe_pos e = walk off (firstn q inp) /\
    pe_msg e = error_report col (byte_or_nul (nth_error inp q)) ls /\
    pe_ctx e = None.

Definition err_offset (e : perror) : nat := offset (pe_pos e).

Record et_ok (col : coloring) (off : position) (inp : bytes) (t : etrack) : Prop := {
  ok_pos : et_labels t <> [] -> exists q, q <= List.length inp /\
      et_pos t = walk off (firstn q inp) /\ et_char t = byte_or_nul (nth_error inp q);
  ok_labels : NoDup (et_labels t);
  ok_errs : Forall (err_ok col off inp) (et_errs t);
  ok_sorted : StronglySorted lt (map err_offset (et_errs t));
  ok_last : Forall (fun e => err_offset e <= et_last t) (et_errs t);
  ok_next : et_labels t <> [] -> et_errs t <> [] -> et_last t < offset (et_pos t) }.

Lemma et_ok_start : forall col off inp t, et_labels t = [] -> et_errs t = [] -> et_ok col off inp t.
Proof.
  intros col off inp t H1 H2. split; rewrite ?H1, ?H2; try constructor; try congruence.
Qed.

Lemma ssorted_snoc : forall l x, StronglySorted lt l -> Forall (fun y => y < x) l ->
  StronglySorted lt (l ++ [x]).
Proof.
  induction l as [|a l IH]; intros x H1 H2; cbn.
  - repeat constructor.
  - inversion H1; subst. inversion H2; subst. constructor; [auto|].
    apply Forall_app. split; [auto|]. repeat constructor. auto.
Qed.

Lemma NoDup_snoc : forall {X} (l : list X) x, NoDup l -> ~ In x l -> NoDup (l ++ [x]).
Proof.
  induction l as [|a l IH]; intros x H1 H2; cbn; [repeat constructor; auto|].
  inversion H1; subst. constructor.
  - rewrite in_app_iff. intros [H|[->|[]]]; [auto|]. apply H2. left. reflexivity.
  - apply IH; [auto|]. intros H. apply H2. right. exact H.
Qed.

Lemma reify_ok : forall col off inp t, et_ok col off inp t -> et_ok col off inp (et_reify col t).
Proof.
  intros col off inp t H. unfold et_reify. destruct (et_labels t) as [|l ls] eqn:El; [exact H|].
  rewrite <- El. pose proof H as [P1 P2 P3 P4 P5 P6].
  assert (et_labels t <> []) as Hn by congruence.
  destruct (P1 Hn) as [q [Q1 [Q2 Q3]]].
  assert (Forall (fun e => err_offset e < offset (et_pos t)) (et_errs t)) as Hlt.
  { destruct (et_errs t) as [|e es] eqn:Ee; [constructor|].
    assert (et_last t < offset (et_pos t)) by (apply P6; congruence).
    eapply Forall_impl; [|exact P5]. cbn. intros. lia. }
  split; cbn [et_labels et_errs et_last et_pos et_char].
  - congruence.
  - constructor.
  - apply Forall_app. split; [exact P3|]. constructor; [|constructor].
    exists q, (et_labels t). cbn [pe_pos pe_msg pe_ctx]. rewrite <- Q2, <- Q3. repeat split; auto.
  - rewrite map_app. cbn. apply ssorted_snoc; [auto|]. apply Forall_map. exact Hlt.
  - apply Forall_app. split; [|repeat constructor].
    eapply Forall_impl; [|exact Hlt]. cbn. intros. lia.
  - congruence.
Qed.

Lemma bytes_eqb_eq : forall a b, bytes_eqb a b = true <-> a = b.
Proof. intros a b. unfold bytes_eqb. destruct (list_eq_dec _ a b); split; congruence. Qed.

Lemma nonempty_true : forall {X} (l : list X), nonempty l = true <-> l <> [].
Proof. intros X [|x l]; cbn; split; congruence. Qed.

Lemma walk_firstn_offset : forall off inp q, q <= List.length inp ->
  offset (walk off (firstn q inp)) = offset off + q.
Proof. intros off inp q H. rewrite walk_offset, firstn_length_le; auto. Qed.

Lemma note_ok : forall col off inp t q label, et_ok col off inp t -> q <= List.length inp ->
  exists t', et_note t (walk off (firstn q inp)) (byte_or_nul (nth_error inp q)) label = Some t' /\
             et_ok col off inp t'.
Proof.
  intros col off inp t q label H Hq. pose proof H as [P1 P2 P3 P4 P5 P6].
  unfold et_note. set (p := walk off (firstn q inp)). set (c := byte_or_nul (nth_error inp q)).
  destruct (Nat.ltb (offset p) (offset (et_pos t)) || (nonempty (et_errs t) && Nat.leb (offset p) (et_last t))) eqn:E1.
  { exists t. auto. }
  apply orb_false_iff in E1. destruct E1 as [E1 E2]. apply Nat.ltb_ge in E1.
  assert (Hlast : et_errs t <> [] -> et_last t < offset p).
  { intros Hn. apply nonempty_true in Hn. rewrite Hn in E2. cbn in E2. apply Nat.leb_gt in E2. exact E2. }
  destruct (negb (nonempty (et_labels t)) || Nat.ltb (offset (et_pos t)) (offset p)) eqn:E3.
  - cbn [et_labels nonempty andb existsb et_pos et_char et_errs et_last app].
    eexists. split; [reflexivity|]. split; cbn [et_labels et_errs et_last et_pos et_char]; auto.
    + intros _. exists q. auto.
    + repeat constructor. auto.
  - apply orb_false_iff in E3. destruct E3 as [E3 E4]. apply negb_false_iff in E3.
    apply Nat.ltb_ge in E4. pose proof (proj1 (nonempty_true _) E3) as Hn.
    destruct (P1 Hn) as [q0 [Q1 [Q2 Q3]]].
    assert (q0 = q).
    { assert (offset (et_pos t) = offset p) as Ho by lia. rewrite Q2 in Ho. unfold p in Ho.
      rewrite !walk_firstn_offset in Ho by auto. lia. }
    subst q0. rewrite E3. fold p in Q2. fold c in Q3. rewrite Q2, Q3, !Nat.eqb_refl.
    unfold beq. rewrite Ascii.eqb_refl. cbn [andb negb].
    destruct (existsb (bytes_eqb label) (et_labels t)) eqn:E5.
    + exists t. auto.
    + eexists. split; [reflexivity|].
      split; cbn [et_labels et_errs et_last et_pos et_char]; auto.
      * intros _. exists q. auto.
      * apply NoDup_snoc; [auto|]. intros Hx.
        assert (existsb (bytes_eqb label) (et_labels t) = true); [|congruence].
        apply existsb_exists. exists label. split; [auto|]. apply bytes_eqb_eq. reflexivity.
Qed.

Section Run.
Variables (col : coloring) (off : position) (inp : bytes).
Hypothesis Hbq : bq_ok inp.
Notation get := (get_of inp).
Notation len := (List.length inp).
Notation run2 := (run CG get (cprun2 col off)).
Notation Inv := (fun u => et_ok col off inp (c_et u)).

Lemma get_len : forall p, get p <> None <-> p < len.
Proof. intros p. unfold get_of. apply nth_error_Some. Qed.

Lemma LI_far : forall k p l, LI get p l -> (forall x, p <= x < p + k -> is_nl get x = false) ->
  LI get (p + k) l.
Proof.
  induction k as [|k IH]; intros p l H Hx; [rewrite Nat.add_0_r; exact H|].
  rewrite Nat.add_succ_r. apply LI_step; [|apply Hx; lia]. apply IH; [exact H|]. intros. apply Hx. lia.
Qed.

Lemma bq_body : forall n s,
  match run2 n (PNot (PChar "`"%char) ⋅ PDot) s with
  | ROk s' | RFail s' => user s' = user s | RStuck => False | RFuel => True end.
Proof.
  intros n s. destruct n as [|n]; [exact I|]. cbn [Peg.run].
  destruct n as [|n]; [exact I|]. cbn [Peg.run].
  destruct n as [|n]; [exact I|]. cbn [Peg.run].
  destruct (get (pos s)) as [c|] eqn:Hg.
  - destruct (beq "`"%char c); cbn [restore pos user]; [reflexivity|]. rewrite Hg. reflexivity.
  - cbn [restore pos user]. rewrite Hg. reflexivity.
Qed.

Lemma bq_body_star : forall n s,
  match run2 n (PStar (PNot (PChar "`"%char) ⋅ PDot)) s with
  | ROk s' => user s' = user s | RFail _ => False | RStuck => False | RFuel => True end.
Proof.
  induction n as [|n IH]; intros s; [exact I|]. cbn [Peg.run].
  pose proof (bq_body n s) as H.
  destruct (run2 n (PNot (PChar "`"%char) ⋅ PDot) s) as [s1|s1| |]; auto.
  specialize (IH s1). rewrite <- H. exact IH.
Qed.

Lemma err_run2 : forall q p u, l_iserr q = true -> p <= len -> LI get p (c_lines u) ->
  et_ok col off inp (c_et u) ->
  exists b u' l, cprun2 col off q p (get p) u = Some (b, u', l) /\
    c_lines u' = backtrack (c_lines u) p /\ et_ok col off inp (c_et u').
Proof.
  intros q p u Hq Hp HL HI. destruct q; try discriminate. unfold cprun2. cbn [cprun].
  assert (LI get p (backtrack (c_lines u) p)) as HB.
  { destruct HL as [b [Hb ->]]. exists p. split; [lia|]. apply backtrack_starts. exact Hb. }
  unfold do_err. rewrite (position_LI inp off _ p p HB) by lia.
  destruct (note_ok col off inp (c_et u) p label HI Hp) as [t' [H1 H2]].
  unfold byte_or_nul in H1. unfold get_of. rewrite H1.
  exists true. eexists. exists []. split; [reflexivity|]. cbn. auto.
Qed.

Lemma bq_run2 : forall n r s, l_bq r = true -> pos s <= len ->
  LI get (pos s) (c_lines (user s)) -> et_ok col off inp (c_et (user s)) ->
  match run2 n (CG r) s with
  | ROk s' => LI get (pos s') (c_lines (user s')) /\ et_ok col off inp (c_et (user s'))
  | RFail s' => LI get (pos s) (c_lines (user s')) /\ et_ok col off inp (c_et (user s'))
  | RStuck => False
  | RFuel => True
  end.
Proof.
  intros n r s Hr Hp HL HI. destruct r; try discriminate.
  change (CG R_escaped_symbolic_name) with g_escaped_symbolic_name.
  unfold g_escaped_symbolic_name.
  destruct n as [|n]; [exact I|]. cbn [Peg.run].
  destruct n as [|n]; [exact I|]. cbn [Peg.run].
  destruct (get (pos s)) as [c|] eqn:Hg; [|auto].
  destruct (beq "`"%char c) eqn:Hc; [|auto]. apply Ascii.eqb_eq in Hc. subst c.
  assert (NLf : forall x, pos s <= x -> is_nl get x = false).
  { intros x Hx. unfold is_nl. destruct (Nat.eq_dec x (pos s)) as [->|Hne].
    - rewrite Hg. reflexivity.
    - destruct (get x) as [d|] eqn:Hd; [|reflexivity]. unfold beq. apply Ascii.eqb_neq. intros ->.
      apply (Hbq (pos s) x); auto; lia. }
  assert (Far : forall x l, pos s <= x -> LI get (pos s) l -> LI get x l).
  { intros x l Hx Hl. replace x with (pos s + (x - pos s)) by lia. apply LI_far; [exact Hl|].
    intros. apply NLf. lia. }
  destruct n as [|n]; [exact I|]. cbn [Peg.run run_pred cprun2 cprun]. unfold run_pred. cbn [cprun2 cprun].
  unfold advance. cbn [pos user thunks].
  match goal with |- context [run CG get (cprun2 col off) n (PStar ?e) ?s1] =>
    pose proof (bq_body_star n s1) as Hst;
    destruct (run CG get (cprun2 col off) n (PStar e) s1) as [s2|s2| |] eqn:Hx end; try contradiction; auto.
  pose proof (run_ok_pos _ _ _ _ _ _ _ Hx) as Hle. cbn [pos] in Hle.
  assert (PB : pos s2 <= len).
  { match type of Hx with run CG _ _ _ ?e ?s1 = _ =>
      pose proof (run_pos_bound CG get (cprun2 col off) len get_len n e s1) as PB end.
    rewrite Hx in PB. apply PB. cbn [pos]. apply (proj1 (get_len (pos s))). congruence. }
  cbn [user] in Hst.
  destruct n as [|n]; [exact I|]. cbn [Peg.run].
  destruct n as [|n]; [exact I|]. cbn [Peg.run]. unfold run_pred at 1. cbn [cprun2 cprun].
  destruct n as [|n]; [exact I|]. cbn [Peg.run].
  destruct n as [|n]; [exact I|]. cbn [Peg.run pos user thunks].
  unfold run_pred. cbn [pos user thunks].
  assert (exists u', cprun2 col off (QErr (B "`")) (pos s2) (get (pos s2)) (user s2) = Some (true, u', []) /\
     c_lines u' = backtrack (c_lines (user s2)) (pos s2) /\ et_ok col off inp (c_et u')) as [u' [U1 [U2 U3]]].
  { destruct (err_run2 (QErr (B "`")) (pos s2) (user s2) eq_refl PB) as [b [u' [l [X1 [X2 X3]]]]].
    - rewrite Hst. apply Far; [lia|exact HL].
    - rewrite Hst. exact HI.
    - exists u'. split; [|auto]. rewrite X1. unfold cprun2 in X1. cbn [cprun] in X1.
      destruct (do_err off (pos s2) (get (pos s2)) (B "`") (user s2)); [|discriminate].
      injection X1 as <- _ <-. reflexivity. }
  assert (LB : LI get (pos s) (c_lines u')).
  { rewrite U2, Hst. destruct HL as [b [Hb HLe]].
    assert (LI get (pos s2) (c_lines (user s))) as HF by (apply Far; [lia|exists b; auto]).
    destruct HF as [b' [Hb' ->]]. rewrite backtrack_starts by exact Hb'. exists (pos s2). split; [lia|reflexivity]. }
  destruct (get (pos s2)) as [c|] eqn:Hg2.
  - destruct (beq "`"%char c); cbn [advance pos user thunks].
    + rewrite Hst. split; [|exact HI]. apply Far; [lia|exact HL].
    + rewrite Hg2, U1. cbn [user pos]. auto.
  - cbn [pos user thunks]. rewrite ?Hg2, U1. cbn [user pos]. auto.
Qed.

Lemma other_run2 : forall q p u, l_isline q = false -> l_iserr q = false -> et_ok col off inp (c_et u) ->
  exists b u' l, cprun2 col off q p (get p) u = Some (b, u', l) /\ c_lines u' = c_lines u /\
                 et_ok col off inp (c_et u') /\ (c_sq q = true -> b = true).
Proof.
  intros q p u H1 H2 HI. destruct q; try discriminate; unfold cprun2; cbn [cprun];
    try (do 3 eexists; split; [reflexivity|]; cbn; auto; fail).
  - destruct (c_op u); do 3 eexists; (split; [reflexivity|]); (split; [reflexivity|]);
      (split; [exact HI|]); intros; discriminate.
  - destruct (c_op u); do 3 eexists; (split; [reflexivity|]); cbn; auto.
  - do 3 eexists. split; [reflexivity|]. cbn. split; [reflexivity|]. split; [|auto]. apply reify_ok. exact HI.
  - do 3 eexists. split; [reflexivity|]. (split; [reflexivity|]); (split; [exact HI|]). cbn. destruct b; auto.
Qed.

(** every rule that has a table entry, from a state with correct line starts *)
Lemma cyrun_sound : forall n e h hs hf lf s,
  nle l_nl l_T l_pt l_eol l_bq l_isline l_iserr c_sq h e = Some (hs, hf, lf) ->
  pos s <= len ->
  HI get h (pos s) (c_lines (user s)) -> et_ok col off inp (c_et (user s)) ->
  match run2 n e s with
  | ROk s' => HI get hs (pos s') (c_lines (user s')) /\ et_ok col off inp (c_et (user s'))
  | RFail s' => HI get hf (pos s) (c_lines (user s')) /\ et_ok col off inp (c_et (user s')) /\
                (lf = true -> LI get (pos s') (c_lines (user s')))
  | RStuck => False
  | RFuel => True
  end.
Proof.
  intros n e h hs hf lf s H1 H2 H3 H4.
  refine (nle_sound CG get (cprun2 col off) len get_len l_nl l_nl_ok l_T l_pt l_eol l_bq l_isline l_iserr c_sq
     c_lines (fun u => et_ok col off inp (c_et u)) R__line_start_ QLineStart _ _ _ _ other_run2 err_run2 bq_run2
     lines_tables_ok _ n e h hs hf lf s H1 H2 H3 H4).
  - intros r Hr. destruct r; try discriminate. reflexivity.
  - reflexivity.
  - intros p c u. eexists. unfold cprun2. cbn [cprun]. split; reflexivity.
  - intros p c u b u' l Hx Hi. unfold cprun2 in Hx. cbn [cprun] in Hx. injection Hx as <- <- <-. exact Hi.
  - intros r [Hr|Hr]; destruct r; try discriminate; reflexivity.
Qed.

End Run.
