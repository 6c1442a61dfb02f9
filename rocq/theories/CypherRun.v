(** * One call of the matching machine on the full grammar

    - the operator used by PREC_CHK / PREC_PUSH has always been set;
    - the precedence stack is balanced;
    - line starts and error positions are true positions. *)
From Verif Require Import Peg PegWf PegProofs PegMode LineSafe LineLevels QuickModel QuickSpec
  QuickProofs CypherSyntax CypherGrammar OperModel ErrModel CypherMatch CypherTables CypherLineTables.

(** ** The operator is set *)

(** [oset h e = Some hs]: code that needs an operator is only reached with one
    set; [h], [hs]: an operator is known to be set before, after success *)
Section Oset.
Variable to : rule -> option bool.       (* rules entered without an operator *)

Fixpoint oset (h : bool) (e : cexp) : option bool :=
  match e with
  | PDot | PChar _ | PStr _ | PClass _ | PAct _ => Some h
  | PRule r => if h then Some true else to r
  | PSeq e1 e2 => match oset h e1 with Some h1 => oset h1 e2 | None => None end
  | PAlt e1 e2 =>
      match oset h e1, oset h e2 with Some a, Some b => Some (a && b) | _, _ => None end
  | PStar e | PQuery e | PAnd e | PNot e =>
      match oset h e with Some _ => Some h | None => None end
  | PPlus e => oset h e
  | PPred (QOp _) => Some true
  | PPred QPrecChk | PPred QPrecPush => if h then Some true else None
  | PPred _ => Some h
  | PErr e QPrecChk | PErr e QPrecPush => None
  | PErr e _ => oset h e
  end.

Definition oset_rule (r : rule) : bool :=
  match oset true (CG r) with Some _ => true | None => false end &&
  match to r with
  | None => true
  | Some b => match oset false (CG r) with Some b' => implb b b' | None => false end
  end.
End Oset.

(** rules that set the operator; [_prec_expression] needs it *)
Definition o_to (r : rule) : option bool :=
  match r with
  | R__prec_expression => None
  | R_PREFIX_OP | R_POSTFIX_OP | R_INFIX_OP | R_COMPARISON_OP => Some true
  | _ => Some false
  end.

Lemma o_to_ok : forall r, oset_rule o_to r = true.
Proof.
  intros r. assert (H : forallb (oset_rule o_to) all_rules = true) by (vm_compute; reflexivity).
  rewrite forallb_forall in H. apply H. apply all_rules_complete.
Qed.

(** the machine with an arbitrary answer where the operator is missing *)
Definition cprun2 (col : coloring) (off : position) (q : pred) (p : nat) (c : option ascii)
    (u : cuser) : option (bool * cuser * list action) :=
  match q, c_op u with
  | QPrecChk, None | QPrecPush, None => Some (true, u, [])
  | _, _ => cprun col off q p c u
  end.

Definition has_op (u : cuser) : bool := match c_op u with Some _ => true | None => false end.

Lemma do_err_op : forall off p c l u u', do_err off p c l u = Some u' -> c_op u' = c_op u.
Proof.
  intros off p c l u u' H. unfold do_err in H.
  destruct (input_position off (backtrack (c_lines u) p) p); [|discriminate].
  destruct (et_note _ _ _ _); [|discriminate]. injection H as <-. reflexivity.
Qed.

Lemma cprun_has_op : forall col off q p c u b u' l,
  cprun col off q p c u = Some (b, u', l) -> has_op u = true -> has_op u' = true.
Proof.
  intros col off q p c u b u' l H Hop. unfold has_op in *.
  destruct q; cbn [cprun] in H; try (injection H as <- <- <-; auto; fail);
  try (destruct (c_op u) eqn:E; [|discriminate]; injection H as <- <- <-; cbn; rewrite ?E; auto; fail).
  destruct (do_err off p c label u) as [v|] eqn:E; [|discriminate]. injection H as <- <- <-.
  rewrite (do_err_op _ _ _ _ _ _ E). exact Hop.
Qed.

Section OpSound.
Variables (col : coloring) (off : position) (get : nat -> option ascii).
Notation run1 := (run CG get (cprun col off)).
Notation run2 := (run CG get (cprun2 col off)).

Lemma oset_sound : forall n e h hs s, oset o_to h e = Some hs ->
  (h = true -> has_op (user s) = true) ->
  run1 n e s = run2 n e s /\
  match run1 n e s with
  | ROk s' => (hs = true -> has_op (user s') = true) /\
              (has_op (user s) = true -> has_op (user s') = true)
  | RFail s' => has_op (user s) = true -> has_op (user s') = true
  | _ => True
  end.
Proof.
  induction n as [|n IH]; intros e h hs s Ho Hh; [split; reflexivity|].
  assert (PredOk : forall q (s0 : pst action cuser) h0 hs0, oset o_to h0 (PPred q) = Some hs0 ->
     (h0 = true -> has_op (user s0) = true) ->
     run_pred get (cprun col off) q s0 = run_pred get (cprun2 col off) q s0 /\
     match run_pred get (cprun col off) q s0 with
     | ROk s' => (hs0 = true -> has_op (user s') = true) /\ (has_op (user s0) = true -> has_op (user s') = true)
     | RFail s' => has_op (user s0) = true -> has_op (user s') = true
     | _ => True end).
  { intros q s0 h0 hs0 Hq Hs0.
    assert (cprun col off q (pos s0) (get (pos s0)) (user s0) =
            cprun2 col off q (pos s0) (get (pos s0)) (user s0)) as Heq.
    { unfold cprun2. destruct q; try reflexivity; cbn [oset] in Hq;
      (destruct h0; [|discriminate]); specialize (Hs0 eq_refl); unfold has_op in Hs0;
      destruct (c_op (user s0)); auto; discriminate. }
    unfold run_pred. rewrite <- Heq. split; [reflexivity|].
    destruct (cprun col off q (pos s0) (get (pos s0)) (user s0)) as [[[b u] l]|] eqn:Hc; auto.
    pose proof (cprun_has_op _ _ _ _ _ _ _ _ _ Hc) as Hk.
    destruct b; cbn [user]; auto. split; [|auto].
    intros ->. destruct q; cbn [oset] in Hq;
      try (injection Hq as ->; auto; fail);
      try (destruct h0; [auto|discriminate]).
    cbn [cprun] in Hc. injection Hc as <- <-. reflexivity. }
  destruct e; cbn [oset] in Ho; cbn [Peg.run].
  - injection Ho as <-. split; [reflexivity|]. destruct (get (pos s)); cbn; auto.
  - injection Ho as <-. split; [reflexivity|]. destruct (get (pos s)); [destruct (beq c a)|]; cbn; auto.
  - injection Ho as <-. split; [reflexivity|]. destruct (match_str get s0 (pos s) (pos s)); cbn; auto.
  - injection Ho as <-. split; [reflexivity|]. destruct (get (pos s)); [destruct (in_class cs a)|]; cbn; auto.
  - pose proof (o_to_ok r) as HR. unfold oset_rule in HR. apply andb_true_iff in HR. destruct HR as [R1 R2].
    assert (exists h0 x, oset o_to h0 (CG r) = Some x /\ (h0 = true -> has_op (user s) = true) /\
              (hs = true -> h = true \/ x = true)) as [h0 [x [X1 [X2 X3]]]].
    { destruct h.
      - injection Ho as <-. destruct (oset o_to true (CG r)) as [x|] eqn:E; [|discriminate].
        exists true, x. auto.
      - rewrite Ho in R2. destruct (oset o_to false (CG r)) as [x|] eqn:E; [|discriminate].
        exists false, x. split; [auto|split; [discriminate|]]. intros ->. cbn in R2. auto. }
    destruct (IH (CG r) h0 x s X1 X2) as [E1 E2]. rewrite <- E1.
    destruct (run1 n (CG r) s) as [s1|s1| |]; split; auto.
    destruct E2 as [E2 E3]. split; [|auto]. intros Hs.
    destruct (X3 Hs) as [->|Hx]; auto.
  - destruct (oset o_to h e1) as [h1|] eqn:E1; [|discriminate].
    destruct (IH e1 h h1 s E1 Hh) as [A1 A2]. rewrite <- A1.
    destruct (run1 n e1 s) as [s1|s1| |]; auto. destruct A2 as [A2 A3].
    destruct (IH e2 h1 hs s1 Ho A2) as [B1 B2]. split; [auto|].
    destruct (run1 n e2 s1) as [s2|s2| |]; auto. destruct B2; auto.
  - destruct (oset o_to h e1) as [h1|] eqn:E1; [|discriminate].
    destruct (oset o_to h e2) as [h2|] eqn:E2; [|discriminate]. injection Ho as <-.
    destruct (IH e1 h h1 s E1 Hh) as [A1 A2]. rewrite <- A1.
    destruct (run1 n e1 s) as [s1|s1| |]; auto.
    + split; [auto|]. destruct A2 as [A2 A3]. split; [|auto]. intros H.
      apply andb_true_iff in H. destruct H; auto.
    + destruct (IH e2 h h2 (restore s s1) E2) as [B1 B2].
      { intros H. cbn. apply A2. auto. }
      split; [auto|]. cbn [restore user] in B2.
      destruct (run1 n e2 (restore s s1)) as [s2|s2| |]; auto.
      destruct B2 as [B2 B3]. split; [|auto]. intros H. apply andb_true_iff in H. destruct H; auto.
  - destruct (oset o_to h e) as [h1|] eqn:E1; [|discriminate]. injection Ho as <-.
    destruct (IH e h h1 s E1 Hh) as [A1 A2]. rewrite <- A1.
    destruct (run1 n e s) as [s1|s1| |]; auto.
    destruct A2 as [A2 A3].
    destruct (IH (PStar e) h h s1) as [B1 B2].
    { cbn [oset]. rewrite E1. reflexivity. }
    { intros H. apply A3. auto. }
    split; [auto|]. destruct (run1 n (PStar e) s1) as [s2|s2| |]; auto. destruct B2; auto.
  - destruct (IH e h hs s Ho Hh) as [A1 A2]. rewrite <- A1.
    destruct (run1 n e s) as [s1|s1| |]; auto.
    destruct A2 as [A2 A3].
    destruct (IH (PStar e) h h s1) as [B1 B2].
    { cbn [oset]. rewrite Ho. reflexivity. }
    { intros H. apply A3. auto. }
    split; [auto|]. destruct (run1 n (PStar e) s1) as [s2|s2| |]; auto.
    destruct B2 as [B2 B3]. auto.
  - destruct (oset o_to h e) as [h1|] eqn:E1; [|discriminate]. injection Ho as <-.
    destruct (IH e h h1 s E1 Hh) as [A1 A2]. rewrite <- A1.
    destruct (run1 n e s) as [s1|s1| |]; cbn; auto. destruct A2; auto.
  - destruct (oset o_to h e) as [h1|] eqn:E1; [|discriminate]. injection Ho as <-.
    destruct (IH e h h1 s E1 Hh) as [A1 A2]. rewrite <- A1.
    destruct (run1 n e s) as [s1|s1| |]; cbn; auto. destruct A2; auto.
  - destruct (oset o_to h e) as [h1|] eqn:E1; [|discriminate]. injection Ho as <-.
    destruct (IH e h h1 s E1 Hh) as [A1 A2]. rewrite <- A1.
    destruct (run1 n e s) as [s1|s1| |]; cbn; auto. destruct A2; auto.
  - injection Ho as <-. split; [reflexivity|]. cbn. auto.
  - apply (PredOk q s h hs); auto.
  - assert (oset o_to h e = Some hs /\ exists x, oset o_to false (PPred q) = Some x) as [Ho' [x Hx]].
    { destruct q; try discriminate; split; cbn; eauto. }
    destruct (IH e h hs s Ho' Hh) as [A1 A2]. rewrite <- A1.
    destruct (run1 n e s) as [s1|s1| |]; auto.
    destruct (PredOk q s1 false x Hx ltac:(discriminate)) as [P1 P2]. rewrite <- P1.
    destruct (run_pred get (cprun col off) q s1) as [s2|s2| |]; split; auto.
    destruct P2; auto.
Qed.
End OpSound.

(** ** The precedence stack is balanced *)

Definition fjoin (a b : option nat) : option (option nat) :=
  match a, b with
  | None, x => Some x
  | x, None => Some x
  | Some i, Some j => if Nat.eqb i j then Some (Some i) else None
  end.

(** [bal h e = Some (hs, hf)]: with [h] entries above the base, [e] leaves [hs]
    on success and [hf] on failure ([None]: it cannot fail) *)
Fixpoint bal (h : nat) (e : cexp) : option (nat * option nat) :=
  match e with
  | PDot | PChar _ | PStr _ | PClass _ | PRule _ => Some (h, Some h)
  | PSeq e1 e2 =>
      match bal h e1 with
      | None => None
      | Some (s1, f1) =>
          match bal s1 e2 with
          | None => None
          | Some (s2, f2) => match fjoin f1 f2 with Some f => Some (s2, f) | None => None end
          end
      end
  | PAlt e1 e2 =>
      match bal h e1 with
      | None => None
      | Some (s1, None) => Some (s1, None)
      | Some (s1, Some f1) =>
          match bal f1 e2 with
          | None => None
          | Some (s2, f2) => if Nat.eqb s1 s2 then Some (s1, f2) else None
          end
      end
  | PStar e =>
      match bal h e with
      | Some (s1, f1) =>
          if Nat.eqb s1 h && match f1 with None => true | Some f => Nat.eqb f h end
          then Some (h, None) else None
      | None => None
      end
  | PPlus e =>
      match bal h e with
      | Some (s1, f1) =>
          if Nat.eqb s1 h && match f1 with None => true | Some f => Nat.eqb f h end
          then Some (h, f1) else None
      | None => None
      end
  | PQuery e =>
      match bal h e with
      | Some (s1, f1) =>
          if match f1 with None => true | Some f => Nat.eqb f s1 end then Some (s1, None) else None
      | None => None
      end
  | PAnd e => bal h e
  | PNot e =>
      match bal h e with
      | Some (s1, Some f1) => Some (f1, Some s1)
      | Some (s1, None) => Some (s1, Some s1)
      | None => None
      end
  | PAct _ => Some (h, None)
  | PPred q =>
      match q with
      | QPrecPush | QPrecPushTop => Some (S h, None)
      | QPrecPop => match h with 0 => None | S k => Some (k, None) end
      | QPrecChk | QConst _ => Some (h, Some h)
      | _ => Some (h, None)
      end
  | PErr e q =>
      match bal h e with
      | None => None
      | Some (s1, None) => Some (s1, None)
      | Some (s1, Some f1) =>
          match q with
          | QErr _ => Some (s1, Some f1)
          | QPrecPop => match f1 with 0 => None | S k => Some (s1, Some k) end
          | _ => None
          end
      end
  end.

Lemma bal_ok : forall r, exists f, bal 0 (CG r) = Some (0, f) /\ (f = None \/ f = Some 0).
Proof.
  intros r.
  assert (H : forallb (fun r => match bal 0 (CG r) with
     | Some (0, None) | Some (0, Some 0) => true | _ => false end) all_rules = true)
    by (vm_compute; reflexivity).
  rewrite forallb_forall in H. specialize (H r (all_rules_complete r)).
  destruct (bal 0 (CG r)) as [[[|n] [[|m]|]]|]; try discriminate; eexists; split; eauto.
Qed.

Lemma do_err_precs : forall off p c l u u', do_err off p c l u = Some u' -> c_precs u' = c_precs u.
Proof.
  intros off p c l u u' H. unfold do_err in H.
  destruct (input_position off (backtrack (c_lines u) p) p); [|discriminate].
  destruct (et_note _ _ _ _); [|discriminate]. injection H as <-. reflexivity.
Qed.

Section BalSound.
Variables (col : coloring) (off : position) (get : nat -> option ascii).
Notation runc := (run CG get (cprun col off)).

Definition above (h : nat) (l : list nat) (u : cuser) : Prop :=
  exists ps, List.length ps = h /\ c_precs u = ps ++ l.

Lemma bal_sound : forall n e h hs hf s l, bal h e = Some (hs, hf) -> above h l (user s) ->
  match runc n e s with
  | ROk s' => above hs l (user s')
  | RFail s' => match hf with Some f => above f l (user s') | None => False end
  | _ => True
  end.
Proof.
  induction n as [|n IH]; intros e h hs hf s l Hb Ha; [exact I|].
  destruct e; cbn [bal] in Hb; cbn [Peg.run].
  - injection Hb as <- <-. destruct (get (pos s)); auto.
  - injection Hb as <- <-. destruct (get (pos s)); [destruct (beq c a)|]; auto.
  - injection Hb as <- <-. destruct (match_str get s0 (pos s) (pos s)); auto.
  - injection Hb as <- <-. destruct (get (pos s)); [destruct (in_class cs a)|]; auto.
  - injection Hb as <- <-. destruct (bal_ok r) as [f [B1 B2]].
    assert (above 0 (c_precs (user s)) (user s)) as H0 by (exists []; auto).
    pose proof (IH (CG r) 0 0 f s (c_precs (user s)) B1 H0) as H1.
    destruct Ha as [ps [Hp1 Hp2]].
    destruct (runc n (CG r) s) as [s1|s1| |]; auto.
    + destruct H1 as [[|] [X1 X2]]; [|discriminate]. exists ps. cbn in X2. rewrite X2. auto.
    + destruct B2 as [-> | ->]; [contradiction|].
      destruct H1 as [[|] [X1 X2]]; [|discriminate]. exists ps. cbn in *. rewrite X2. auto.
  - destruct (bal h e1) as [[s1' f1]|] eqn:E1; [|discriminate].
    destruct (bal s1' e2) as [[s2' f2]|] eqn:E2; [|discriminate].
    destruct (fjoin f1 f2) as [f|] eqn:EF; [|discriminate]. injection Hb as <- <-.
    pose proof (IH e1 h s1' f1 s l E1 Ha) as H1.
    destruct (runc n e1 s) as [s1|s1| |]; auto.
    + pose proof (IH e2 s1' s2' f2 s1 l E2 H1) as H2.
      destruct (runc n e2 s1) as [s2|s2| |]; auto.
      destruct f2 as [f2|]; [|contradiction]. destruct f1 as [f1|]; cbn in EF.
      * destruct (Nat.eqb_spec f1 f2); [|discriminate]. injection EF as <-. subst. auto.
      * injection EF as <-. auto.
    + destruct f1 as [f1|]; [|contradiction]. destruct f2 as [f2|]; cbn in EF.
      * destruct (Nat.eqb_spec f1 f2); [|discriminate]. injection EF as <-. auto.
      * injection EF as <-. auto.
  - destruct (bal h e1) as [[s1' [f1|]]|] eqn:E1; [| |discriminate].
    + destruct (bal f1 e2) as [[s2' f2]|] eqn:E2; [|discriminate].
      destruct (Nat.eqb_spec s1' s2'); [|discriminate]. injection Hb as <- <-. subst s2'.
      pose proof (IH e1 h s1' (Some f1) s l E1 Ha) as H1.
      destruct (runc n e1 s) as [s1|s1| |]; auto.
      apply (IH e2 f1 s1' f2 (restore s s1) l E2). exact H1.
    + injection Hb as <- <-. pose proof (IH e1 h s1' None s l E1 Ha) as H1.
      destruct (runc n e1 s) as [s1|s1| |]; auto. contradiction.
  - destruct (bal h e) as [[s1' f1]|] eqn:E1; [|discriminate].
    destruct (Nat.eqb s1' h && match f1 with None => true | Some f => Nat.eqb f h end) eqn:EC; [|discriminate].
    injection Hb as <- <-. pose proof EC as EC'. apply andb_true_iff in EC. destruct EC as [EC1 EC2].
    apply Nat.eqb_eq in EC1. subst s1'.
    pose proof (IH e h h f1 s l E1 Ha) as H1.
    destruct (runc n e s) as [s1|s1| |]; auto.
    + apply (IH (PStar e) h h None s1 l); [|exact H1]. cbn [bal]. rewrite E1, EC'. reflexivity.
    + destruct f1 as [f1|]; [|contradiction]. apply Nat.eqb_eq in EC2. subst f1. exact H1.
  - destruct (bal h e) as [[s1' f1]|] eqn:E1; [|discriminate].
    destruct (Nat.eqb s1' h && match f1 with None => true | Some f => Nat.eqb f h end) eqn:EC; [|discriminate].
    injection Hb as <- <-. pose proof EC as EC'. apply andb_true_iff in EC. destruct EC as [EC1 EC2].
    apply Nat.eqb_eq in EC1. subst s1'.
    pose proof (IH e h h f1 s l E1 Ha) as H1.
    destruct (runc n e s) as [s1|s1| |]; auto.
    assert (bal h (PStar e) = Some (h, None)) as ES by (cbn [bal]; rewrite E1, EC'; reflexivity).
    pose proof (IH (PStar e) h h None s1 l ES H1) as H2.
    destruct (runc n (PStar e) s1) as [s2|s2| |]; auto. contradiction.
  - destruct (bal h e) as [[s1' f1]|] eqn:E1; [|discriminate].
    destruct (match f1 with None => true | Some f => Nat.eqb f s1' end) eqn:EC; [|discriminate].
    injection Hb as <- <-. pose proof (IH e h s1' f1 s l E1 Ha) as H1.
    destruct (runc n e s) as [s1|s1| |]; auto.
    destruct f1 as [f1|]; [|contradiction]. apply Nat.eqb_eq in EC. subst. exact H1.
  - pose proof (IH e h hs hf s l Hb Ha) as H1.
    destruct (runc n e s) as [s1|s1| |]; auto.
  - destruct (bal h e) as [[s1' [f1|]]|] eqn:E1; [| |discriminate]; injection Hb as <- <-;
    pose proof (IH e h _ _ s l E1 Ha) as H1;
    (destruct (runc n e s) as [s1|s1| |]; auto). contradiction.
  - injection Hb as <- <-. exact Ha.
  - unfold run_pred. destruct Ha as [ps [Hp1 Hp2]].
    destruct q; cbn [cprun] in *;
      try (injection Hb as <- <-; exists ps; auto; fail).
    + destruct (c_op (user s)); [|exact I]. injection Hb as <- <-.
      destruct (Nat.leb _ _); exists ps; auto.
    + destruct (c_op (user s)); [|exact I]. injection Hb as <- <-.
      exists (next_prec o :: ps). cbn. rewrite Hp2. auto.
    + injection Hb as <- <-. exists (0 :: ps). cbn. rewrite Hp2. auto.
    + destruct h as [|h]; [discriminate|]. injection Hb as <- <-. destruct ps as [|x ps]; [discriminate|].
      exists ps. cbn. rewrite Hp2. cbn. auto.
    + injection Hb as <- <-. destruct b; exists ps; auto.
    + injection Hb as <- <-. destruct (do_err off (pos s) (get (pos s)) label (user s)) as [v|] eqn:E; [|exact I].
      exists ps. cbn. rewrite (do_err_precs _ _ _ _ _ _ E). auto.
  - destruct (bal h e) as [[s1' [f1|]]|] eqn:E1; [| |discriminate].
    + pose proof (IH e h s1' (Some f1) s l E1 Ha) as H1.
      destruct q; try discriminate.
      * destruct f1 as [|k]; [discriminate|]. injection Hb as <- <-.
        destruct (runc n e s) as [s1|s1| |]; auto. cbn [run_pred cprun].
        unfold run_pred. cbn [cprun user]. destruct H1 as [ps [X1 X2]].
        destruct ps as [|x ps]; [discriminate|]. exists ps. cbn. rewrite X2. cbn. auto.
      * injection Hb as <- <-.
        destruct (runc n e s) as [s1|s1| |]; auto. unfold run_pred. cbn [cprun].
        destruct (do_err off (pos s1) (get (pos s1)) label (user s1)) as [v|] eqn:E; [|exact I].
        cbn [user]. destruct H1 as [ps [X1 X2]]. exists ps. rewrite (do_err_precs _ _ _ _ _ _ E). auto.
    + injection Hb as <- <-. pose proof (IH e h s1' None s l E1 Ha) as H1.
      destruct (runc n e s) as [s1|s1| |]; auto. contradiction.
Qed.
End BalSound.
