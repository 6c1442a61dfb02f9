(** * Newline-safety in the presence of error blocks

    The full parser's ERR blocks drop the line starts recorded beyond the
    position of the failure (parser.c:1015-1027, backtrack_lines), so "the line
    start after this newline has been recorded" is not stable.  [nle] refines
    the analysis of LineSafe.v accordingly.  Levels, at a position [p]:
    - [L0] nothing known;
    - [L1] should the byte at [p] be a newline, the line start [S p] is recorded;
    - [L2] the byte at [p] is not a newline.
    At every level the line starts up to [p] are recorded. *)
From Verif Require Import Peg PegWf PegProofs QuickModel LineSafe.

Inductive lev : Set := L0 | L1 | L2.

Definition lmin (a b : lev) : lev :=
  match a, b with
  | L2, b => b
  | a, L2 => a
  | L1, L1 => L1
  | _, _ => L0
  end.

Definition lle (a b : lev) : bool :=
  match a, b with
  | L0, _ => true
  | L1, L0 => false
  | L1, _ => true
  | L2, L2 => true
  | L2, _ => false
  end.

Section Analysis.
Context {R A Q : Type}.
Notation pexp := (pexp R A Q).
Variable nl : R -> bool.                 (* nullable table *)
Variable T : R -> lev -> option (lev * lev).  (* per rule and level on entry: see [nle] *)
Variable pt : R -> bool.                 (* rules that touch no line starts *)
Variable iseol : R -> bool.              (* the rule EOL *)
Variable isbq : R -> bool.               (* rules dealt with separately *)
Variable isline : Q -> bool.             (* the line_start code *)
Variable iserr : Q -> bool.              (* the ERR code *)
Variable sq : Q -> bool.                 (* code that never answers "no" *)

(** runs neither _line_start_ nor ERR *)
Fixpoint pure (e : pexp) : bool :=
  match e with
  | PDot | PChar _ | PStr _ | PClass _ | PAct _ => true
  | PRule r => pt r
  | PSeq e1 e2 | PAlt e1 e2 => pure e1 && pure e2
  | PStar e | PPlus e | PQuery e | PAnd e | PNot e => pure e
  | PPred q => negb (isline q) && negb (iserr q)
  | PErr _ _ => false
  end.

Definition noNL (cs : bytes) : bool := forallb (fun c => negb (beq c NL)) cs.

Definition after_fail2 (h f1 f2 : lev) (nul : bool) : lev :=
  match h with
  | L2 => L2
  | _ => lmin f1 (if nul then lmin f2 L1 else L1)
  end.

Definition after_peek (h s1 : lev) (nul : bool) : lev :=
  match h with L2 => L2 | _ => if nul then lmin s1 L1 else L1 end.

(** [an] analyses the loop body: a level that every iteration starts with *)
Definition star_lev (an : lev -> option (lev * lev * bool)) (h : lev) : option lev :=
  let ok k := match an k with Some (s, f, _) => if lle k s then Some f else None | None => None end in
  let try1 := match ok L1 with Some f => Some f | None => ok L0 end in
  match h with
  | L0 => ok L0
  | L1 => try1
  | L2 => match ok L2 with Some f => Some f | None => try1 end
  end.

(** [nle h e = Some (hs, hf, lf)].  [h]: level on entry; [hs]: level at the new
    position after success; [hf]: level at the entry position after failure;
    [lf]: the line starts up to the position of the failure are recorded. *)
Fixpoint nle (h : lev) (e : pexp) {struct e} : option (lev * lev * bool) :=
  match e with
  | PDot => match h with L0 => None | _ => Some (L0, L2, true) end
  | PChar c => if noNL [c] || lle L1 h then Some (L0, h, true) else None
  | PStr s => if noNL s then Some (L0, h, true) else None
  | PClass cs => if noNL cs || lle L1 h then Some (L0, h, true) else None
  | PRule r =>
      if iseol r then Some (L0, L2, true)
      else if isbq r then Some (L0, match h with L2 => L2 | _ => L0 end, true)
      else match T r h with Some (a, b) => Some (a, b, true) | None => None end
  | PSeq e1 e2 =>
      match nle h e1 with
      | None => None
      | Some (s1, f1, l1) =>
          match nle s1 e2 with
          | None => None
          | Some (s2, f2, l2) => Some (s2, after_fail2 h f1 f2 (nullable nl e1), l1 && l2)
          end
      end
  | PAlt e1 e2 =>
      match nle h e1 with
      | None => None
      | Some (s1, f1, _) =>
          match nle f1 e2 with
          | None => None
          | Some (s2, f2, l2) => Some (lmin s1 s2, f2, l2)
          end
      end
  | PStar e =>
      match star_lev (fun k => nle k e) h with
      | None => None
      | Some f => Some (f, L2, true)
      end
  | PPlus e =>
      match nle h e with
      | None => None
      | Some (s1, f1, l1) =>
          match star_lev (fun k => nle k e) s1 with
          | None => None
          | Some f => Some (f, f1, l1)
          end
      end
  | PQuery e =>
      match nle h e with
      | None => None
      | Some (s1, f1, _) => Some (lmin s1 f1, L2, true)
      end
  | PAnd e =>
      if pure e then Some (h, h, false) else
      match nle h e with
      | None => None
      | Some (s1, f1, l1) => Some (after_peek h s1 (nullable nl e), f1, l1)
      end
  | PNot e =>
      match e with
      | PDot => Some (L2, h, false)
      | _ =>
          if pure e then Some (h, h, false) else
          match nle h e with
          | None => None
          | Some (s1, f1, _) => Some (f1, after_peek h s1 (nullable nl e), true)
          end
      end
  | PAct _ => Some (h, L2, true)
  | PPred q =>
      if isline q || iserr q then None else Some (h, if sq q then L2 else h, true)
  | PErr e q =>
      if isline q then None else
      match nle h e with
      | None => None
      | Some (s1, f1, l1) =>
          if iserr q then
            if l1 then Some (s1, match f1 with L2 => L2 | _ => L0 end, true) else None
          else Some (s1, f1, l1)
      end
  end.

(** table entries of a rule justified by its body *)
Definition nle_rule (G : R -> pexp) (r : R) : bool :=
  forallb (fun h =>
    match T r h with
    | None => true
    | Some (a, b) =>
        match nle h (G r) with
        | None => false
        | Some (a', b', _) => lle a a' && lle b b'
        end
    end) [L0; L1; L2]
  && implb (pt r) (pure (G r)).

End Analysis.

Section Sound.
Context {R A Q U : Type}.
Variable G : R -> pexp R A Q.
Variable get : nat -> option ascii.
Variable prun : Q -> nat -> option ascii -> U -> option (bool * U * list A).
Notation pst := (pst A U).
Notation pexp := (pexp R A Q).
Notation run := (run G get prun).
Notation LI := (LI get).
Notation is_nl := (is_nl get).

Variable len : nat.
Hypothesis get_len : forall p, get p <> None <-> p < len.
Variable nl : R -> bool.
Hypothesis nl_ok : forall r, nullable nl (G r) = true -> nl r = true.
Variable T : R -> lev -> option (lev * lev).
Variables pt iseol isbq : R -> bool.
Variables isline iserr sq : Q -> bool.
Variable lines : U -> list nat.
Variable Inv : U -> Prop.
Variable lsr : R.          (* the rule _line_start_ *)
Variable lsq : Q.          (* its code *)

Hypothesis eol_body : forall r, iseol r = true ->
  G r = PSeq (PAlt (PChar NL) (PStr [CR; NL])) (PRule lsr).
Hypothesis ls_body : G lsr = PPred lsq.
Hypothesis ls_run : forall p c u, exists u',
  prun lsq p c u = Some (true, u', []) /\ lines u' = line_start p (lines u).
Hypothesis ls_inv : forall p c u b u' l, prun lsq p c u = Some (b, u', l) -> Inv u -> Inv u'.
Hypothesis other_run : forall q p u, isline q = false -> iserr q = false -> Inv u ->
  exists b u' l, prun q p (get p) u = Some (b, u', l) /\ lines u' = lines u /\ Inv u' /\
                 (sq q = true -> b = true).
Hypothesis err_run : forall q p u, iserr q = true -> p <= len -> LI p (lines u) -> Inv u ->
  exists b u' l, prun q p (get p) u = Some (b, u', l) /\ lines u' = backtrack (lines u) p /\ Inv u'.
Hypothesis bq_run : forall n r s, isbq r = true -> pos s <= len ->
  LI (pos s) (lines (user s)) -> Inv (user s) ->
  match run n (G r) s with
  | ROk s' => LI (pos s') (lines (user s')) /\ Inv (user s')
  | RFail s' => LI (pos s) (lines (user s')) /\ Inv (user s')
  | RStuck => False
  | RFuel => True
  end.
Hypothesis T_ok : forall r, iseol r = false -> isbq r = false ->
  nle_rule nl T pt iseol isbq isline iserr sq G r = true.
Hypothesis pt_other : forall r, iseol r = true \/ isbq r = true -> pt r = false.

Definition HI (h : lev) (p : nat) (l : list nat) : Prop :=
  LI p l /\
  match h with
  | L0 => True
  | L1 => is_nl p = true -> LI (S p) l
  | L2 => is_nl p = false
  end.

Lemma HI_LI : forall h p l, HI h p l -> LI p l.
Proof. intros h p l H. apply H. Qed.

Lemma HI_le : forall h h' p l, lle h' h = true -> HI h p l -> HI h' p l.
Proof.
  intros h h' p l Hle [H1 H2]. split; [auto|].
  destruct h', h; try discriminate; auto. intros Hx. congruence.
Qed.

Lemma lmin_l : forall a b, lle (lmin a b) a = true.
Proof. destruct a, b; reflexivity. Qed.
Lemma lmin_r : forall a b, lle (lmin a b) b = true.
Proof. destruct a, b; reflexivity. Qed.
Lemma lle_trans : forall a b c, lle a b = true -> lle b c = true -> lle a c = true.
Proof. destruct a, b, c; auto. Qed.
Lemma lle_0 : forall a, lle L0 a = true.
Proof. destruct a; reflexivity. Qed.
Lemma lle_refl : forall a, lle a a = true.
Proof. destruct a; reflexivity. Qed.

Lemma LI_1 : forall p l, LI (S p) l -> HI L1 p l.
Proof. intros p l H. split; [eapply LI_down; [|exact H]; lia|auto]. Qed.

(** code without line effects *)
Lemma pure_sound : forall n e s, pure pt isline iserr e = true -> Inv (user s) ->
  match run n e s with
  | ROk s' | RFail s' => lines (user s') = lines (user s) /\ Inv (user s')
  | RStuck => False
  | RFuel => True
  end.
Proof.
  induction n as [|n IH]; intros e s Hp HI; [exact I|].
  destruct e; cbn [pure] in Hp; cbn [Peg.run]; try discriminate.
  - destruct (get (pos s)); cbn; auto.
  - destruct (get (pos s)); [destruct (beq c a)|]; cbn; auto.
  - destruct (match_str get s0 (pos s) (pos s)); cbn; auto.
  - destruct (get (pos s)); [destruct (in_class cs a)|]; cbn; auto.
  - assert (pure pt isline iserr (G r) = true) as Hg.
    { assert (iseol r = false) as H1.
      { destruct (iseol r) eqn:E; [|auto]. rewrite (pt_other r) in Hp by auto. discriminate. }
      assert (isbq r = false) as H2.
      { destruct (isbq r) eqn:E; [|auto]. rewrite (pt_other r) in Hp by auto. discriminate. }
      pose proof (T_ok r H1 H2) as H. unfold nle_rule in H. apply andb_true_iff in H.
      destruct H as [_ H]. rewrite Hp in H. exact H. }
    pose proof (IH (G r) s Hg HI) as H. destruct (Peg.run G get prun n (G r) s); auto.
  - apply andb_true_iff in Hp. destruct Hp as [Hp1 Hp2].
    pose proof (IH e1 s Hp1 HI) as H1. destruct (Peg.run G get prun n e1 s) as [s1|s1| |]; auto.
    destruct H1 as [H1 H1']. pose proof (IH e2 s1 Hp2 H1') as H2. rewrite H1 in H2. exact H2.
  - apply andb_true_iff in Hp. destruct Hp as [Hp1 Hp2].
    pose proof (IH e1 s Hp1 HI) as H1. destruct (Peg.run G get prun n e1 s) as [s1|s1| |]; auto.
    destruct H1 as [H1 H1']. pose proof (IH e2 (restore s s1) Hp2 H1') as H2.
    cbn [restore user] in H2. rewrite H1 in H2. exact H2.
  - pose proof (IH e s Hp HI) as H1. destruct (Peg.run G get prun n e s) as [s1|s1| |]; auto.
    destruct H1 as [H1 H1']. pose proof (IH (PStar e) s1 Hp H1') as H2. rewrite H1 in H2. exact H2.
  - pose proof (IH e s Hp HI) as H1. destruct (Peg.run G get prun n e s) as [s1|s1| |]; auto.
    destruct H1 as [H1 H1']. pose proof (IH (PStar e) s1 Hp H1') as H2. rewrite H1 in H2. exact H2.
  - pose proof (IH e s Hp HI) as H1. destruct (Peg.run G get prun n e s) as [s1|s1| |]; auto.
  - pose proof (IH e s Hp HI) as H1. destruct (Peg.run G get prun n e s) as [s1|s1| |]; auto.
  - pose proof (IH e s Hp HI) as H1. destruct (Peg.run G get prun n e s) as [s1|s1| |]; auto.
  - cbn. auto.
  - apply andb_true_iff in Hp. destruct Hp as [Hp1 Hp2]. apply negb_true_iff in Hp1, Hp2.
    unfold run_pred. destruct (other_run q (pos s) (user s) Hp1 Hp2 HI) as [b [u' [l [-> [Hl [Hi _]]]]]].
    destruct b; cbn; auto.
Qed.

Lemma star_not_fail : forall n (e : pexp) s s', run n (PStar e) s <> RFail s'.
Proof.
  induction n as [|n IH]; intros e s s'; [discriminate|]. cbn [Peg.run].
  destruct (Peg.run G get prun n e s); try discriminate. apply IH.
Qed.

Lemma eol_inv : forall n r s, iseol r = true -> Inv (user s) ->
  match run n (G r) s with
  | ROk s' | RFail s' => Inv (user s')
  | RStuck => False
  | RFuel => True
  end.
Proof.
  intros n r s Hr HI. rewrite (eol_body r Hr).
  assert (Hls : forall m s1, Inv (user s1) ->
     match run m (PRule lsr) s1 with
     | ROk s' | RFail s' => Inv (user s') | RStuck => False | RFuel => True end).
  { intros m s1 H1. destruct m as [|m]; [exact I|]. cbn [Peg.run]. rewrite ls_body.
    destruct m as [|m]; [exact I|]. cbn [Peg.run]. unfold run_pred.
    destruct (ls_run (pos s1) (get (pos s1)) (user s1)) as [u' [Hx _]].
    rewrite Hx. cbn [user]. eapply ls_inv; eauto. }
  assert (Hat : forall m s1, Inv (user s1) ->
     match run m (PAlt (PChar NL) (PStr [CR; NL])) s1 with
     | ROk s' | RFail s' => Inv (user s') | RStuck => False | RFuel => True end).
  { intros m s1 H1. destruct m as [|m]; [exact I|]. cbn [Peg.run].
    destruct m as [|m]; [exact I|]. cbn [Peg.run].
    destruct (get (pos s1)) as [c|].
    - destruct (beq NL c); [exact H1|]. cbn [restore pos user thunks].
      destruct (match_str get [CR; NL] (pos s1) (pos s1)); exact H1.
    - cbn [restore pos user thunks].
      destruct (match_str get [CR; NL] (pos s1) (pos s1)); exact H1. }
  destruct n as [|n]; [exact I|]. cbn [Peg.run].
  pose proof (Hat n s HI) as H.
  destruct (Peg.run G get prun n (PAlt (PChar NL) (PStr [CR; NL])) s) as [s1|s1| |]; auto.
  apply Hls. exact H.
Qed.

Definition Post (h hs hf : lev) (lf : bool) (s : pst) (r : res A U) : Prop :=
  match r with
  | ROk s' => HI hs (pos s') (lines (user s')) /\ Inv (user s')
  | RFail s' => HI hf (pos s) (lines (user s')) /\ Inv (user s') /\
                (lf = true -> LI (pos s') (lines (user s')))
  | RStuck => False
  | RFuel => True
  end.

Theorem nle_sound : forall n e h hs hf lf s,
  nle nl T pt iseol isbq isline iserr sq h e = Some (hs, hf, lf) ->
  pos s <= len ->
  HI h (pos s) (lines (user s)) -> Inv (user s) ->
  Post h hs hf lf s (run n e s).
Proof.
  induction n as [|n IH]; intros e h hs hf lf s Hn Hlen HH Hinv; [exact I|].
  pose proof HH as [HL HN].
  pose proof (run_pos_bound G get prun len get_len) as PB.
  (* the star, given a level its body preserves *)
  assert (Star : forall e h f s, star_lev (fun k => nle nl T pt iseol isbq isline iserr sq k e) h = Some f ->
     pos s <= len -> HI h (pos s) (lines (user s)) -> Inv (user s) ->
     match run n (PStar e) s with
     | ROk s' => HI f (pos s') (lines (user s')) /\ Inv (user s')
     | RStuck => False | _ => True end).
  { intros e0 h0 f0 s0 H0 Hl0 Hh0 Hi0.
    assert (nle nl T pt iseol isbq isline iserr sq h0 (PStar e0) = Some (f0, L2, true)) as H1.
    { cbn [nle]. rewrite H0. reflexivity. }
    pose proof (IH _ _ _ _ _ _ H1 Hl0 Hh0 Hi0) as H2. unfold Post in H2.
    destruct (Peg.run G get prun n (PStar e0) s0); auto. }
  assert (SL : forall (e : pexp) h f, star_lev (fun k => nle nl T pt iseol isbq isline iserr sq k e) h = Some f ->
     exists k s l, lle k h = true /\ nle nl T pt iseol isbq isline iserr sq k e = Some (s, f, l) /\
       lle k s = true /\ star_lev (fun k => nle nl T pt iseol isbq isline iserr sq k e) k = Some f).
  { intros e0 h0 f0 H0.
    assert (Ok : forall k, match nle nl T pt iseol isbq isline iserr sq k e0 with
        | Some (s, f, _) => if lle k s then Some f else None | None => None end = Some f0 ->
        exists s l, nle nl T pt iseol isbq isline iserr sq k e0 = Some (s, f0, l) /\ lle k s = true).
    { intros k Hk. destruct (nle nl T pt iseol isbq isline iserr sq k e0) as [[[s1 f1] l1]|]; [|discriminate].
      destruct (lle k s1) eqn:El; [|discriminate]. injection Hk as ->. exists s1, l1. auto. }
    assert (Done : forall k, lle k h0 = true ->
       match nle nl T pt iseol isbq isline iserr sq k e0 with
        | Some (s, f, _) => if lle k s then Some f else None | None => None end = Some f0 ->
       exists k s l, lle k h0 = true /\ nle nl T pt iseol isbq isline iserr sq k e0 = Some (s, f0, l) /\
       lle k s = true /\ star_lev (fun k => nle nl T pt iseol isbq isline iserr sq k e0) k = Some f0).
    { intros k Hk Hx. destruct (Ok k Hx) as [s1 [l1 [Ha Hb]]]. exists k, s1, l1.
      split; [auto|split; [auto|split; [auto|]]]. unfold star_lev. destruct k; rewrite Hx; reflexivity. }
    unfold star_lev in H0. destruct h0.
    - apply (Done L0); auto.
    - destruct (match nle nl T pt iseol isbq isline iserr sq L1 e0 with
        | Some (s, f, _) => if lle L1 s then Some f else None | None => None end) eqn:E1.
      + injection H0 as ->. apply (Done L1); auto.
      + apply (Done L0); auto.
    - destruct (match nle nl T pt iseol isbq isline iserr sq L2 e0 with
        | Some (s, f, _) => if lle L2 s then Some f else None | None => None end) eqn:E2.
      + injection H0 as ->. apply (Done L2); auto.
      + destruct (match nle nl T pt iseol isbq isline iserr sq L1 e0 with
          | Some (s, f, _) => if lle L1 s then Some f else None | None => None end) eqn:E1.
        * injection H0 as ->. apply (Done L1); auto.
        * apply (Done L0); auto. }
  assert (Peek : forall e s1 h1, run n e s = ROk s1 -> HI h1 (pos s1) (lines (user s1)) ->
     HI (after_peek h h1 (nullable nl e)) (pos s) (lines (user s1))).
  { intros e0 s1 h1 Hx H1. pose proof (run_ok_pos _ _ _ _ _ _ _ Hx) as Hp.
    assert (LI (pos s) (lines (user s1))) as HLs by (eapply LI_down; [exact Hp|apply H1]).
    unfold after_peek.
    assert (Hgen : HI (if nullable nl e0 then lmin h1 L1 else L1) (pos s) (lines (user s1))).
    { destruct (Nat.eq_dec (pos s1) (pos s)) as [Heq|Hne].
      - destruct (nullable nl e0) eqn:Hnull.
        + rewrite <- Heq. eapply HI_le; [apply lmin_l|exact H1].
        + exfalso. pose proof (nullable_sound G get prun nl nl_ok _ _ _ _ Hx Hnull). lia.
      - eapply HI_le with (h := L1).
        + destruct (nullable nl e0); [apply lmin_r|reflexivity].
        + apply LI_1. eapply LI_down; [|apply H1]. lia. }
    destruct h; auto. split; [auto|exact HN]. }
  destruct e; cbn [nle] in Hn; cbn [Peg.run].
  - (* dot *)
    destruct h; try discriminate; injection Hn as <- <- <-;
    (destruct (get (pos s)) eqn:Hg; cbn [Post advance pos user];
     [ split; [|auto]; split; [|exact I]; destruct (is_nl (pos s)) eqn:Hnl;
       [ try (apply HN; reflexivity); try discriminate; auto | apply LI_step; auto ]
     | split; [|split; auto]; split; [auto|]; unfold LineSafe.is_nl; rewrite Hg; reflexivity ]).
  - (* char *)
    destruct (noNL [c] || lle L1 h) eqn:Hc; [|discriminate]. injection Hn as <- <- <-.
    destruct (get (pos s)) as [c'|] eqn:Hg; [destruct (beq c c') eqn:Hb|]; cbn [Post advance pos user].
    + split; [|auto]. split; [|exact I].
      apply Ascii.eqb_eq in Hb. subst c'.
      destruct (is_nl (pos s)) eqn:Hnl; [|apply LI_step; auto].
      destruct h; cbn in Hc; try (apply HN; reflexivity); try congruence.
      unfold LineSafe.is_nl in Hnl. rewrite Hg in Hnl. rewrite Hnl in Hc. discriminate.
    + auto.
    + auto.
  - (* str *)
    destruct (noNL s0) eqn:Hc; [|discriminate]. injection Hn as <- <- <-.
    destruct (match_str get s0 (pos s) (pos s)) eqn:Hms; cbn [Post pos user].
    + split; [|auto]. split; [|exact I].
      apply match_str_inl in Hms. destruct Hms as [-> Hms].
      unfold noNL in Hc. rewrite forallb_forall in Hc.
      assert (forall i, i <= List.length s0 -> LI (pos s + i) (lines (user s))) as HX.
      { induction i as [|i IHi]; intros Hi; [rewrite Nat.add_0_r; auto|].
        replace (pos s + S i) with (S (pos s + i)) by lia. apply LI_step; [apply IHi; lia|].
        unfold LineSafe.is_nl. rewrite Hms by lia.
        destruct (nth_error s0 i) eqn:He; [|auto].
        apply nth_error_In in He. apply Hc in He. apply negb_true_iff in He. auto. }
      apply HX. lia.
    + split; [exact HH|split; [auto|]]. intros _.
      assert (forall str p0 p q, noNL str = true -> LI p0 (lines (user s)) -> LI p (lines (user s)) ->
         match_str get str p0 p = inr q -> LI q (lines (user s))) as HX.
      { clear - get. induction str as [|c str IHs]; intros p0 p q Hc H0 H1 Hm; cbn in Hm; [discriminate|].
        cbn in Hc. apply andb_true_iff in Hc. destruct Hc as [Hc1 Hc2].
        destruct (get p) as [c'|] eqn:Hg; [|injection Hm as <-; auto].
        destruct (beq c c') eqn:Hb; [|injection Hm as <-; auto].
        eapply IHs; [exact Hc2|exact H0| |exact Hm]. apply LI_step; [auto|].
        unfold LineSafe.is_nl. rewrite Hg. apply Ascii.eqb_eq in Hb. subst c'.
        apply negb_true_iff in Hc1. exact Hc1. }
      eapply HX; eauto.
  - (* class *)
    destruct (noNL cs || lle L1 h) eqn:Hc; [|discriminate]. injection Hn as <- <- <-.
    destruct (get (pos s)) as [c'|] eqn:Hg; [destruct (in_class cs c') eqn:Hb|]; cbn [Post advance pos user].
    + split; [|auto]. split; [|exact I].
      destruct (is_nl (pos s)) eqn:Hnl; [|apply LI_step; auto].
      destruct h; cbn [lle] in Hc; rewrite ?orb_false_r in Hc; try (apply HN; reflexivity); try congruence.
      apply existsb_exists in Hb. destruct Hb as [c [Hin Hcc]]. apply Ascii.eqb_eq in Hcc. subst c.
      unfold noNL in Hc. rewrite forallb_forall in Hc. apply Hc in Hin.
      unfold LineSafe.is_nl in Hnl. rewrite Hg in Hnl. rewrite Hnl in Hin. discriminate.
    + auto.
    + auto.
  - (* rule *)
    destruct (iseol r) eqn:Hr.
    + injection Hn as <- <- <-.
      pose proof (eol_sound G get prun iseol lines lsr lsq eol_body ls_body ls_run (S n) r s Hr HL) as HE.
      pose proof (eol_inv n r s Hr Hinv) as HE2.
      cbn [Peg.run] in HE.
      destruct (Peg.run G get prun n (G r) s) as [s1|s1| |] eqn:Hx; cbn [Post restore user pos] in *; auto.
      * destruct HE as [H1 _]. split; [split; [auto|exact I]|auto].
      * destruct HE as [H1 H2]. rewrite H1 in *. split; [split; auto|auto].
    + destruct (isbq r) eqn:Hb.
      * injection Hn as <- <- <-.
        pose proof (bq_run n r s Hb Hlen HL Hinv) as HE.
        destruct (Peg.run G get prun n (G r) s) as [s1|s1| |] eqn:Hx; cbn [Post restore user pos] in *; auto.
        -- destruct HE. split; [split; [auto|exact I]|auto].
        -- destruct HE as [H1 H2]. split; [|auto]. split; [auto|]. destruct h; auto.
      * destruct (T r h) as [[a b]|] eqn:HT; [|discriminate]. injection Hn as <- <- <-.
        pose proof (T_ok r Hr Hb) as H. unfold nle_rule in H. apply andb_true_iff in H.
        destruct H as [H _]. rewrite forallb_forall in H.
        specialize (H h ltac:(destruct h; cbn; auto)). rewrite HT in H.
        destruct (nle nl T pt iseol isbq isline iserr sq h (G r)) as [[[a' b'] l']|] eqn:HG; [|discriminate].
        apply andb_true_iff in H. destruct H as [Ha Hb'].
        pose proof (IH (G r) h a' b' l' s HG Hlen HH Hinv) as HR.
        destruct (Peg.run G get prun n (G r) s) as [s1|s1| |] eqn:Hx; cbn [Post restore user pos] in *; auto.
        -- destruct HR. split; [eapply HI_le; eauto|auto].
        -- destruct HR as [H1 [H2 _]]. split; [eapply HI_le; eauto|]. split; [auto|].
           intros _. apply H1.
  - (* seq *)
    destruct (nle nl T pt iseol isbq isline iserr sq h e1) as [[[s1' f1] l1]|] eqn:H1; [|discriminate].
    destruct (nle nl T pt iseol isbq isline iserr sq s1' e2) as [[[s2' f2] l2]|] eqn:H2; [|discriminate].
    injection Hn as <- <- <-.
    pose proof (IH e1 h s1' f1 l1 s H1 Hlen HH Hinv) as HE1.
    pose proof (PB n e1 s Hlen) as Hb1.
    destruct (Peg.run G get prun n e1 s) as [s1|s1| |] eqn:Hx; cbn [Post] in HE1; auto.
    + destruct HE1 as [Ha Hb].
      pose proof (run_ok_pos _ _ _ _ _ _ _ Hx) as Hp.
      pose proof (IH e2 s1' s2' f2 l2 s1 H2 Hb1 Ha Hb) as HE2.
      destruct (Peg.run G get prun n e2 s1) as [s2|s2| |] eqn:Hx2; cbn [Post] in *; auto.
      destruct HE2 as [Hc [Hd He]]. split; [|split; [auto|]].
      * assert (LI (pos s) (lines (user s2))) as HLs by (eapply LI_down; [exact Hp|apply Hc]).
        unfold after_fail2.
        assert (HI (lmin f1 (if nullable nl e1 then lmin f2 L1 else L1)) (pos s) (lines (user s2))) as Hg.
        { destruct (Nat.eq_dec (pos s1) (pos s)) as [Heq|Hne].
          - destruct (nullable nl e1) eqn:Hnull.
            + rewrite <- Heq. eapply HI_le; [|exact Hc].
              eapply lle_trans; [apply lmin_r|apply lmin_l].
            + exfalso. pose proof (nullable_sound G get prun nl nl_ok _ _ _ _ Hx Hnull). lia.
          - eapply HI_le with (h := L1).
            + eapply lle_trans; [apply lmin_r|].
              destruct (nullable nl e1); [apply lmin_r|reflexivity].
            + apply LI_1. eapply LI_down; [|apply Hc]. lia. }
        destruct h; auto. split; [auto|exact HN].
      * intros Hl. apply andb_true_iff in Hl. destruct Hl. auto.
    + destruct HE1 as [Ha [Hb Hc]]. cbn [Post]. split; [|split; [auto|]].
      * unfold after_fail2. destruct h; try (eapply HI_le; [apply lmin_l|exact Ha]).
        split; [apply Ha|exact HN].
      * intros Hl. apply andb_true_iff in Hl. destruct Hl. auto.
  - (* alt *)
    destruct (nle nl T pt iseol isbq isline iserr sq h e1) as [[[s1' f1] l1]|] eqn:H1; [|discriminate].
    destruct (nle nl T pt iseol isbq isline iserr sq f1 e2) as [[[s2' f2] l2]|] eqn:H2; [|discriminate].
    injection Hn as <- <- <-.
    pose proof (IH e1 h s1' f1 l1 s H1 Hlen HH Hinv) as HE1.
    destruct (Peg.run G get prun n e1 s) as [s1|s1| |] eqn:Hx; cbn [Post] in *; auto.
    + destruct HE1. split; [eapply HI_le; [apply lmin_l|auto]|auto].
    + destruct HE1 as [Ha [Hb Hc]].
      pose proof (IH e2 f1 s2' f2 l2 (restore s s1) H2 Hlen Ha Hb) as HE2.
      destruct (Peg.run G get prun n e2 (restore s s1)) as [s2|s2| |] eqn:Hx2; cbn [Post] in *; auto.
      destruct HE2. split; [eapply HI_le; [apply lmin_r|auto]|auto].
  - (* star *)
    destruct (star_lev (fun k => nle nl T pt iseol isbq isline iserr sq k e) h) as [f|] eqn:HS; [|discriminate].
    injection Hn as <- <- <-.
    destruct (SL e h f HS) as [k [s1' [l1 [Hk [H1 [Hk1 HSk]]]]]].
    pose proof (IH e k s1' f l1 s H1 Hlen (HI_le _ _ _ _ Hk HH) Hinv) as HE1.
    pose proof (PB n e s Hlen) as Hb1.
    destruct (Peg.run G get prun n e s) as [s1|s1| |] eqn:Hx; cbn [Post] in *; auto.
    + destruct HE1 as [Ha Hb].
      pose proof (Star e k f s1 HSk Hb1 (HI_le _ _ _ _ Hk1 Ha) Hb) as HE2.
      pose proof (star_not_fail n e s1) as Hnf.
      destruct (Peg.run G get prun n (PStar e) s1) as [s2|s2| |] eqn:Hx2; cbn [Post] in *; auto.
      exfalso. eapply Hnf. reflexivity.
    + destruct HE1 as [Ha [Hb Hc]]. cbn [restore pos user]. auto.
  - (* plus *)
    destruct (nle nl T pt iseol isbq isline iserr sq h e) as [[[s1' f1] l1]|] eqn:H1; [|discriminate].
    destruct (star_lev (fun k => nle nl T pt iseol isbq isline iserr sq k e) s1') as [f|] eqn:HS; [|discriminate].
    injection Hn as <- <- <-.
    pose proof (IH e h s1' f1 l1 s H1 Hlen HH Hinv) as HE1.
    pose proof (PB n e s Hlen) as Hb1.
    destruct (Peg.run G get prun n e s) as [s1|s1| |] eqn:Hx; cbn [Post] in *; auto.
    destruct HE1 as [Ha Hb].
    pose proof (Star e s1' f s1 HS Hb1 Ha Hb) as HE2.
    pose proof (star_not_fail n e s1) as Hnf.
    destruct (Peg.run G get prun n (PStar e) s1) as [s2|s2| |] eqn:Hx2; cbn [Post] in *; auto.
    exfalso. eapply Hnf. reflexivity.
  - (* query *)
    destruct (nle nl T pt iseol isbq isline iserr sq h e) as [[[s1' f1] l1]|] eqn:H1; [|discriminate].
    injection Hn as <- <- <-.
    pose proof (IH e h s1' f1 l1 s H1 Hlen HH Hinv) as HE1.
    destruct (Peg.run G get prun n e s) as [s1|s1| |] eqn:Hx; cbn [Post restore pos user] in *; auto.
    + destruct HE1. split; [eapply HI_le; [apply lmin_l|auto]|auto].
    + destruct HE1 as [Ha [Hb _]]. split; [eapply HI_le; [apply lmin_r|auto]|auto].
  - (* and *)
    destruct (pure pt isline iserr e) eqn:Hat.
    { injection Hn as <- <- <-. pose proof (pure_sound n e s Hat Hinv) as HU.
      destruct (Peg.run G get prun n e s) as [s1|s1| |] eqn:Hx; cbn [Post restore pos user]; auto;
      destruct HU as [HU1 HU2]; rewrite HU1; auto. split; [exact HH|split; [auto|discriminate]]. }
    destruct (nle nl T pt iseol isbq isline iserr sq h e) as [[[s1' f1] l1]|] eqn:H1; [|discriminate].
    injection Hn as <- <- <-.
    pose proof (IH e h s1' f1 l1 s H1 Hlen HH Hinv) as HE1.
    destruct (Peg.run G get prun n e s) as [s1|s1| |] eqn:Hx; cbn [Post restore pos user] in *; auto.
    destruct HE1 as [Ha Hb]. split; [|auto]. eapply Peek; eauto.
  - (* not *)
    assert (Hpure : forall hs0 hf0, (hs0 = h \/ (hs0 = L2 /\ e = PDot)) -> hf0 = h ->
       pure pt isline iserr e = true -> Post h hs0 hf0 false s (run (S n) (PNot e) s)).
    { intros hs0 hf0 Hs0 -> Hat. cbn [Peg.run]. pose proof (pure_sound n e s Hat Hinv) as HU.
      destruct (Peg.run G get prun n e s) as [s1|s1| |] eqn:Hx; cbn [Post restore pos user]; auto;
      destruct HU as [HU1 HU2]; rewrite HU1.
      - split; [exact HH|split; [auto|discriminate]].
      - split; [|auto]. destruct Hs0 as [->|[-> ->]]; [exact HH|]. split; [auto|].
        destruct n as [|n']; [discriminate|]. cbn [Peg.run] in Hx. unfold LineSafe.is_nl.
        destruct (get (pos s)); [discriminate|reflexivity]. }
    assert (Hrest : nle nl T pt iseol isbq isline iserr sq h (PNot e) = Some (hs, hf, lf)) by exact Hn.
    destruct (pure pt isline iserr e) eqn:Hat.
    { destruct e; try (injection Hn as <- <- <-; apply Hpure; auto; fail);
      cbn [pure] in Hat; try discriminate; rewrite ?Hat in Hn; injection Hn as <- <- <-; apply Hpure; auto. }
    assert (Hn' : match nle nl T pt iseol isbq isline iserr sq h e with
       | None => None
       | Some (s1, f1, _) => Some (f1, after_peek h s1 (nullable nl e), true) end = Some (hs, hf, lf)).
    { destruct e; cbn [pure] in Hat; try discriminate; exact Hn. }
    clear Hn Hrest. 
    destruct (nle nl T pt iseol isbq isline iserr sq h e) as [[[s1' f1] l1]|] eqn:H1; [|discriminate].
    injection Hn' as <- <- <-.
    pose proof (IH e h s1' f1 l1 s H1 Hlen HH Hinv) as HE1.
    destruct (Peg.run G get prun n e s) as [s1|s1| |] eqn:Hx; cbn [Post restore pos user] in *; auto.
    + destruct HE1 as [Ha Hb]. split; [eapply Peek; eauto|]. split; [auto|]. intros _. apply Ha.
    + destruct HE1 as [Ha [Hb _]]. auto.
  - (* act *)
    injection Hn as <- <- <-. cbn. auto.
  - (* pred *)
    destruct (isline q || iserr q) eqn:Hq; [discriminate|]. injection Hn as <- <- <-.
    apply orb_false_iff in Hq. destruct Hq as [Hq1 Hq2].
    unfold run_pred. destruct (other_run q (pos s) (user s) Hq1 Hq2 Hinv) as [b [u' [l [-> [Hl [Hi Hsq]]]]]].
    destruct b; cbn [Post pos user]; rewrite Hl; [auto|]. split; [|auto].
    destruct (sq q); [|auto]. specialize (Hsq eq_refl). discriminate.
  - (* err *)
    destruct (isline q) eqn:Hq; [discriminate|].
    destruct (nle nl T pt iseol isbq isline iserr sq h e) as [[[s1' f1] l1]|] eqn:H1; [|discriminate].
    pose proof (IH e h s1' f1 l1 s H1 Hlen HH Hinv) as HE1.
    pose proof (PB n e s Hlen) as Hb1.
    destruct (iserr q) eqn:Hq2.
    + destruct l1; [|discriminate]. injection Hn as <- <- <-.
      destruct (Peg.run G get prun n e s) as [s1|s1| |] eqn:Hx; cbn [Post] in *; auto.
      destruct HE1 as [Ha [Hb Hc]]. specialize (Hc eq_refl).
      pose proof (run_fail_pos _ _ _ _ _ _ _ Hx) as Hp.
      unfold run_pred.
      destruct (err_run q (pos s1) (user s1) Hq2 Hb1 Hc Hb) as [b [u' [l [-> [Hl Hi]]]]].
      assert (LI (pos s1) (lines u')) as Hbt.
      { rewrite Hl. destruct Hc as [bb [Hbb ->]]. rewrite backtrack_starts by auto.
        exists (pos s1). auto. }
      assert (HI match f1 with L2 => L2 | _ => L0 end (pos s) (lines u')) as HF.
      { split; [eapply LI_down; eauto|]. destruct f1; auto. apply Ha. }
      destruct b; cbn [Post pos user]; auto.
    + injection Hn as <- <- <-.
      destruct (Peg.run G get prun n e s) as [s1|s1| |] eqn:Hx; cbn [Post] in *; auto.
      destruct HE1 as [Ha [Hb Hc]].
      unfold run_pred. destruct (other_run q (pos s1) (user s1) Hq Hq2 Hb) as [b [u' [l [-> [Hl [Hi _]]]]]].
      destruct b; cbn [Post pos user]; rewrite Hl; auto.
Qed.

End Sound.
